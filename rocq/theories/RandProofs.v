(** Lemmas about RandModel: what one call of the helper does to the available indices and to the totals. *)
From Coq Require Import ZArith Lia.
From stdpp Require Import gmap strings list sorting.
From Verif Require Import ValueModel BalanceModel StoreModel StoreSpec StoreProofs SelModel SelSpec SelProofs RandModel.
Open Scope Z_scope.

(** ** Sets, sorting and associations *)
Lemma set_insert_perm i l : i ∉ l -> set_insert i l ≡ₚ i :: l.
Proof.
  induction l as [|j l IH]; intro H; cbn [set_insert]; [reflexivity|].
  destruct (i <? j)%nat eqn:Hlt; [reflexivity|].
  destruct (i =? j)%nat eqn:Heq.
  { apply Nat.eqb_eq in Heq. subst. exfalso. apply H. left. }
  rewrite IH. { apply Permutation_swap. } intro Hi. apply H. by right.
Qed.

Lemma set_remove_elem i l j : j ∈ set_remove i l <-> j ∈ l /\ j <> i.
Proof. unfold set_remove. rewrite elem_of_list_filter. tauto. Qed.
Lemma set_remove_perm i l : NoDup l -> i ∈ l -> i :: set_remove i l ≡ₚ l.
Proof.
  intros N H. apply NoDup_Permutation; [|exact N|].
  - apply NoDup_cons. split; [rewrite set_remove_elem; tauto|]. by apply NoDup_filter.
  - intro j. rewrite elem_of_cons, set_remove_elem. destruct (decide (j = i)) as [ -> |]; tauto.
Qed.

Lemma hash_insert_elem i l j : j ∈ hash_insert i l <-> j = i \/ j ∈ l.
Proof.
  unfold hash_insert. destruct (decide (i ∈ l)).
  - split; [tauto|]. intros [ -> |]; done.
  - rewrite elem_of_app, elem_of_list_singleton. tauto.
Qed.
Lemma hash_insert_NoDup i l : NoDup l -> NoDup (hash_insert i l).
Proof.
  intro N. unfold hash_insert. destruct (decide (i ∈ l)); [done|].
  apply NoDup_app. split; [done|]. split; [|apply NoDup_singleton].
  intros x Hx Hi. apply elem_of_list_singleton in Hi. by subst.
Qed.
Lemma hash_insert_all c : forall l, (forall j, j ∈ foldl (fun l i => hash_insert i l) l c <-> j ∈ c \/ j ∈ l) /\
  (NoDup l -> NoDup (foldl (fun l i => hash_insert i l) l c)).
Proof.
  induction c as [|i c IH]; intro l; cbn [foldl].
  - split; [|done]. intro j. rewrite elem_of_nil. tauto.
  - destruct (IH (hash_insert i l)) as [H1 H2]. split.
    + intro j. rewrite H1, hash_insert_elem, elem_of_cons. tauto.
    + intro N. apply H2. by apply hash_insert_NoDup.
Qed.

Lemma swap_remove_spec r l : (r < length l)%nat -> exists x l', swap_remove r l = Some (x, l') /\ x :: l' ≡ₚ l.
Proof.
  intro Hr. unfold swap_remove.
  destruct (lookup_lt_is_Some_2 l r Hr) as [x Hx]. rewrite Hx.
  destruct (exists_last (l := l)) as (front & z & El). { intro F. subst. simpl in Hr. lia. }
  subst l. rewrite last_snoc.
  replace (length (front ++ [z]) - 1)%nat with (length front) by (rewrite app_length; simpl; lia).
  rewrite take_app. eexists _, _. split; [reflexivity|].
  destruct (r =? length front)%nat eqn:E.
  - apply Nat.eqb_eq in E. subst r. rewrite list_lookup_middle in Hx by done. injection Hx as ->.
    apply Permutation_cons_append.
  - apply Nat.eqb_neq in E. rewrite app_length in Hr; simpl in Hr.
    rewrite lookup_app_l in Hx by lia.
    rewrite (Permutation_app_comm front [z]). simpl.
    rewrite <- (take_drop_middle front r x Hx) at 2.
    rewrite insert_take_drop by lia.
    rewrite <- !Permutation_middle.
    apply Permutation_swap.
Qed.

Lemma insert_by_perm key o l : insert_by key o l ≡ₚ o :: l.
Proof.
  induction l as [|p l IH]; cbn [insert_by]; [reflexivity|].
  destruct (key o <=? key p); [reflexivity|]. rewrite IH. apply Permutation_swap.
Qed.
Lemma sort_outputs_perm key l : sort_outputs key l ≡ₚ l.
Proof. unfold sort_outputs. induction l as [|o l IH]; cbn [foldr]; [reflexivity|]. by rewrite insert_by_perm, IH. Qed.

(** the indices of an association, and its keys *)
Definition ids (asc : association) : list nat := flat_map snd asc.
Definition keys (asc : association) : list uout := map fst asc.
Definition of_key (asc : association) (o : uout) : list nat := default [] (assoc_get o asc).

Lemma assoc_get_key o asc : is_Some (assoc_get o asc) <-> o ∈ keys asc.
Proof.
  unfold keys. induction asc as [|[p is] asc IH]; cbn [assoc_get map fst].
  - rewrite elem_of_nil. split; [intros [? ?]; discriminate|tauto].
  - rewrite elem_of_cons. destruct (decide (p = o)) as [ -> |Hne]; [split; eauto|].
    rewrite IH. split; [tauto|]. intros [H|H]; [congruence|done].
Qed.
Lemma assoc_set_key o is asc : o ∈ keys asc -> keys (assoc_set o is asc) = keys asc.
Proof.
  unfold keys. induction asc as [|[p js] asc IH]; cbn [assoc_set map fst]; intro H; [by apply elem_of_nil in H|].
  destruct (decide (p = o)) as [ -> |Hne]; [reflexivity|]. cbn [map fst]. f_equal. apply IH.
  apply elem_of_cons in H as [H|H]; [congruence|done].
Qed.
Lemma assoc_set_new o is asc : o ∉ keys asc -> assoc_set o is asc = asc ++ [(o, is)].
Proof.
  unfold keys. induction asc as [|[p js] asc IH]; cbn [assoc_set map fst]; intro H; [reflexivity|].
  destruct (decide (p = o)) as [ -> |Hne]. { exfalso. apply H. left. }
  cbn [app]. f_equal. apply IH. intro. apply H. by right.
Qed.
Lemma assoc_set_ids o asc is0 : assoc_get o asc = Some is0 ->
  exists rest, ids asc ≡ₚ is0 ++ rest /\ forall is, ids (assoc_set o is asc) ≡ₚ is ++ rest.
Proof.
  unfold ids. induction asc as [|[p js] asc IH]; cbn [assoc_get assoc_set flat_map snd]; intro H; [discriminate|].
  destruct (decide (p = o)) as [ -> |Hne].
  - injection H as ->. exists (flat_map snd asc). split; [reflexivity|]. intro is. reflexivity.
  - destruct (IH H) as (rest & H1 & H2). exists (js ++ rest). split.
    + rewrite H1. apply Permutation_app_swap_app.
    + intro is. cbn [flat_map snd]. rewrite H2. apply Permutation_app_swap_app.
Qed.
Lemma assoc_push_ids o i asc : ids (assoc_push o i asc) ≡ₚ i :: ids asc.
Proof.
  unfold assoc_push. destruct (assoc_get o asc) as [is|] eqn:E.
  - destruct (assoc_set_ids o asc is E) as (rest & H1 & H2). cbn [default]. unfold default, id.
    rewrite H2, H1. rewrite <- app_assoc. symmetry. apply Permutation_middle.
  - rewrite assoc_set_new.
    + unfold ids. rewrite flat_map_app. cbn. rewrite Permutation_app_comm. reflexivity.
    + intro K. apply assoc_get_key in K as [? K]. congruence.
Qed.
Lemma assoc_push_keys o i asc : NoDup (keys asc) ->
  NoDup (keys (assoc_push o i asc)) /\ forall p, p ∈ keys (assoc_push o i asc) <-> p = o \/ p ∈ keys asc.
Proof.
  intro N. unfold assoc_push. destruct (decide (o ∈ keys asc)) as [K|K].
  - rewrite assoc_set_key by done. split; [done|]. intro p. split; [tauto|]. intros [ -> |]; done.
  - rewrite assoc_set_new by done. unfold keys in *. rewrite map_app. cbn [map fst]. split.
    + apply NoDup_app. split; [done|]. split; [|apply NoDup_singleton].
      intros x Hx Ho. apply elem_of_list_singleton in Ho. by subst.
    + intro p. rewrite elem_of_app, elem_of_list_singleton. tauto.
Qed.
Lemma ids_keys asc : NoDup (keys asc) -> ids asc = flat_map (of_key asc) (keys asc).
Proof.
  unfold ids, keys, of_key. induction asc as [|[p is] asc IH]; cbn [map fst flat_map snd]; intro N; [reflexivity|].
  apply NoDup_cons in N as [N1 N2]. cbn [assoc_get]. rewrite decide_True by done. cbn. f_equal.
  rewrite IH by done. clear IH.
  assert (H : forall l, (forall o, o ∈ l -> o <> p) ->
     flat_map (fun o => default [] (assoc_get o asc)) l =
     flat_map (fun o => default [] (if decide (p = o) then Some is else assoc_get o asc)) l).
  { induction l as [|o l IHl]; intro Hl; [reflexivity|]. cbn [flat_map]. rewrite decide_False.
    - f_equal. apply IHl. intros x Hx. apply Hl. by right.
    - intro F. apply (Hl o); [left|done]. }
  apply H. intros o Ho ->. done.
Qed.
Lemma elem_of_flat_map {A B} (f : A -> list B) l b : b ∈ flat_map f l <-> exists a, a ∈ l /\ b ∈ f a.
Proof.
  rewrite elem_of_list_In, in_flat_map. split; intros (a & H1 & H2); exists a; rewrite ?elem_of_list_In in *; auto.
Qed.

(** ** Charging inputs *)
Section Random.
  Context {E : Type} (est : estimator E) (rnd : nat -> nat) (chk : bool) (sc : Z) (inputs : list utxo).

  Lemma charge_app us : forall e vs,
    charge est e (us ++ vs) =
    match charge est e us with
    | Some (e', f) => match charge est e' vs with Some (e'', g) => Some (e'', f + g) | None => None end
    | None => None
    end.
  Proof.
    induction us as [|u us IH]; intros e vs; cbn [app charge].
    { destruct (charge est e vs) as [[? ?]|]; [|reflexivity]. reflexivity. }
    destruct (e_fee_in est e u) as [f|]; [|reflexivity].
    destruct (e_add_in est e u) as [e' []]; [|reflexivity]. rewrite IH.
    destruct (charge est e' us) as [[e'' g]|]; [|reflexivity].
    destruct (charge est e'' vs) as [[e3 h]|]; [|reflexivity]. do 2 f_equal. lia.
  Qed.

  (** s' is s after the inputs us were charged *)
  Definition ledger (s : ri E) (us : list utxo) (s' : ri E) : Prop :=
    exists f, charge est (r_est s) us = Some (r_est s', f) /\ r_fee s' = r_fee s + f /\
      r_total s' = r_total s + value_in us /\ r_assets s' = add_assets (r_assets s) (flat_map u_assets us).

  Lemma ledger_nil s s' : r_est s' = r_est s -> r_fee s' = r_fee s -> r_total s' = r_total s ->
    r_assets s' = r_assets s -> ledger s [] s'.
  Proof. intros H1 H2 H3 H4. exists 0. cbn. rewrite H1, H2, H3, H4. repeat split; try reflexivity; unfold value_in; cbn; lia. Qed.
  Lemma ledger_trans s1 us s2 vs s3 : ledger s1 us s2 -> ledger s2 vs s3 -> ledger s1 (us ++ vs) s3.
  Proof.
    intros (f & A1 & A2 & A3 & A4) (g & B1 & B2 & B3 & B4). exists (f + g).
    rewrite charge_app, A1, B1. split; [reflexivity|]. split; [lia|]. split.
    - unfold value_in in *. rewrite map_app, sumZ_app. lia.
    - rewrite B4, A4. unfold add_assets. rewrite flat_map_app, foldl_app. reflexivity.
  Qed.

  Lemma at_indices_app is js us vs : at_indices inputs is = Some us -> at_indices inputs js = Some vs ->
    at_indices inputs (is ++ js) = Some (us ++ vs).
  Proof.
    revert us. induction is as [|i is IH]; intros us; cbn [at_indices app].
    - intros [= <-]. done.
    - destruct (inputs !! i) as [u|]; [|done]. destruct (at_indices inputs is) as [us'|]; [|done].
      intros [= <-] H. by rewrite (IH us').
  Qed.
  Lemma at_indices_perm is js : is ≡ₚ js -> forall us, at_indices inputs is = Some us ->
    exists vs, at_indices inputs js = Some vs /\ us ≡ₚ vs.
  Proof.
    induction 1 as [|i is js P IH|i j is|is js ks P1 IH1 P2 IH2]; intros us H.
    - exists us. split; [done|reflexivity].
    - cbn [at_indices] in *. destruct (inputs !! i) as [u|]; [|done].
      destruct (at_indices inputs is) as [us'|]; [|done]. injection H as <-.
      destruct (IH us' eq_refl) as (vs & -> & Q). exists (u :: vs). split; [done|by f_equiv].
    - cbn [at_indices] in *. destruct (inputs !! i) as [u|]; destruct (inputs !! j) as [v|]; try done.
      destruct (at_indices inputs is) as [us'|]; [|done]. injection H as <-.
      exists (u :: v :: us'). split; [done|apply Permutation_swap].
    - destruct (IH1 us H) as (vs & H1 & Q1). destruct (IH2 vs H1) as (ws & H2 & Q2).
      exists ws. split; [done|]. by rewrite Q1.
  Qed.
  Lemma at_indices_some is : (forall i, i ∈ is -> (i < length inputs)%nat) -> is_Some (at_indices inputs is).
  Proof.
    induction is as [|i is IH]; intro H; cbn [at_indices]; [eauto|].
    destruct (lookup_lt_is_Some_2 inputs i) as [u ->]; [apply H; left|].
    destruct IH as [us ->]; [|eauto]. intros j Hj. apply H. by right.
  Qed.
  Lemma at_indices_bound is us : at_indices inputs is = Some us -> forall i, i ∈ is -> (i < length inputs)%nat.
  Proof.
    revert us. induction is as [|j is IH]; intros us H i Hi; [by apply elem_of_nil in Hi|].
    cbn [at_indices] in H. destruct (inputs !! j) as [u|] eqn:Ej; [|done].
    destruct (at_indices inputs is) as [us'|] eqn:Eu; [|done].
    apply elem_of_cons in Hi as [ -> |Hi]; [by eapply lookup_lt_Some|by eapply IH].
  Qed.

  Lemma charge_one s i : (i < length inputs)%nat ->
    match ri_charge est inputs s i with
    | SDone s' => exists us, at_indices inputs [i] = Some us /\ ledger s us s' /\ r_av s' = r_av s /\ r_pos s' = r_pos s
    | SFail (_, av') => av' = r_av s
    | SPanic | SLoop => False
    end.
  Proof.
    intro Hi. unfold ri_charge. destruct (lookup_lt_is_Some_2 inputs i Hi) as [u Hu]. rewrite Hu.
    destruct (e_fee_in est (r_est s) u) as [f|] eqn:Ef; [|reflexivity].
    destruct (e_add_in est (r_est s) u) as [e' []] eqn:Ea; [|reflexivity].
    exists [u]. cbn [at_indices]. rewrite Hu. split; [done|]. split; [|done].
    exists f. cbn [charge r_est r_fee r_total r_assets flat_map]. rewrite Ef, Ea.
    split; [do 2 f_equal; lia|]. split; [done|]. unfold value_in; cbn. split; [lia|]. by rewrite app_nil_r.
  Qed.

  Lemma charge_all_spec is : forall s chosen, (forall i, i ∈ is -> (i < length inputs)%nat) ->
    match charge_all est inputs is s chosen with
    | SDone (s', chosen') =>
        exists us, at_indices inputs is = Some us /\ ledger s us s' /\ r_av s' = r_av s /\ r_pos s' = r_pos s /\
          (forall j, j ∈ chosen' <-> j ∈ is \/ j ∈ chosen) /\ (NoDup chosen -> NoDup chosen')
    | SFail (_, av') => av' = r_av s
    | SPanic | SLoop => False
    end.
  Proof.
    induction is as [|i is IH]; intros s chosen Hb; cbn [charge_all].
    { exists []. cbn. split; [done|]. split; [by apply ledger_nil|]. do 2 (split; [done|]).
      split; [|done]. intro j. rewrite elem_of_nil. tauto. }
    pose proof (charge_one s i) as C. destruct (ri_charge est inputs s i) as [s'|[e' av']| |];
      [|apply C; apply Hb; left|apply C; apply Hb; left|apply C; apply Hb; left].
    destruct C as (us & U & L & A & P); [apply Hb; left|].
    specialize (IH s' (hash_insert i chosen)).
    destruct (charge_all est inputs is s' (hash_insert i chosen)) as [[s'' chosen']|[e'' av'']| |].
    - destruct IH as (vs & V & L' & A' & P' & I & N); [intros j Hj; apply Hb; by right|].
      exists (us ++ vs). split. { apply (at_indices_app [i] is us vs U V). }
      split; [by eapply ledger_trans|]. split; [congruence|]. split; [congruence|]. split.
      + intro j. rewrite I, hash_insert_elem, elem_of_cons. tauto.
      + intro N0. apply N. by apply hash_insert_NoDup.
    - rewrite <- A. apply IH. intros j Hj; apply Hb; by right.
    - apply IH. intros j Hj; apply Hb; by right.
    - apply IH. intros j Hj; apply Hb; by right.
  Qed.

  Lemma finalize_spec outs asc : forall s chosen, (forall i, i ∈ ids asc -> (i < length inputs)%nat) ->
    match finalize est inputs outs asc s chosen with
    | SDone (s', chosen') =>
        exists us, at_indices inputs (flat_map (of_key asc) outs) = Some us /\ ledger s us s' /\ r_av s' = r_av s /\
          r_pos s' = r_pos s /\
          (forall j, j ∈ chosen' <-> j ∈ flat_map (of_key asc) outs \/ j ∈ chosen) /\ (NoDup chosen -> NoDup chosen') /\
          (forall o, o ∈ outs -> o ∈ keys asc)
    | SFail (_, av') => av' = r_av s
    | SPanic | SLoop => False
    end.
  Proof.
    induction outs as [|o outs IH]; intros s chosen Hb; cbn [finalize].
    { exists []. cbn. split; [done|]. split; [by apply ledger_nil|]. do 2 (split; [done|]).
      split; [|split; [done|]]; intro j; rewrite elem_of_nil; tauto. }
    destruct (assoc_get o asc) as [is|] eqn:Eo; [|reflexivity].
    assert (Hk : o ∈ keys asc) by (apply assoc_get_key; eauto).
    assert (His : of_key asc o = is) by (unfold of_key; by rewrite Eo).
    assert (Hbi : forall i, i ∈ is -> (i < length inputs)%nat).
    { intros i Hi. apply Hb. destruct (assoc_set_ids o asc is Eo) as (rest & P & _).
      apply (elem_of_Permutation_proper i _ _ P). apply elem_of_app. by left. }
    pose proof (charge_all_spec is s chosen Hbi) as C.
    destruct (charge_all est inputs is s chosen) as [[s' chosen']|[e' av']| |]; [|done|done|done].
    destruct C as (us & U & L & A & P & I & N).
    specialize (IH s' chosen' Hb).
    destruct (finalize est inputs outs asc s' chosen') as [[s'' chosen'']|[e' av']| |]; [|by rewrite <- A|done|done].
    destruct IH as (vs & V & L' & A' & P' & I' & N' & K').
    exists (us ++ vs). cbn [flat_map]. rewrite His. split; [by apply at_indices_app|].
    split; [by eapply ledger_trans|]. split; [congruence|]. split; [congruence|]. split; [|split].
    - intro j. rewrite I', I, elem_of_app. tauto.
    - auto.
    - intros p Hp. apply elem_of_cons in Hp as [ -> |Hp]; auto.
  Qed.

  (** ** Phase 1 *)
  (** rel are the indices still usable, av the available ones, and the rest of av0 is associated with outputs *)
  Record parts (av0 rel av : list nat) (asc : association) : Prop := Parts {
    p_nodup : NoDup av0;
    p_perm : av ++ ids asc ≡ₚ av0;
    p_rel : NoDup rel;
    p_sub : forall i, i ∈ rel -> i ∈ av;
    p_keys : NoDup (keys asc)
  }.

  Lemma parts_take av0 rel av asc i rel' o : parts av0 rel av asc -> i :: rel' ≡ₚ rel ->
    parts av0 rel' (set_remove i av) (assoc_push o i asc).
  Proof.
    intros [N P R S K] Q.
    assert (NR : NoDup (i :: rel')) by (by rewrite Q).
    assert (NA : NoDup av). { rewrite <- P in N. by apply NoDup_app in N as (? & _). }
    assert (Hi : i ∈ av). { apply S. rewrite <- Q. left. }
    split; [done| | | |].
    - rewrite assoc_push_ids. rewrite <- P. rewrite <- (set_remove_perm i av NA Hi) at 2.
      cbn [app]. symmetry. apply Permutation_middle.
    - by apply NoDup_cons in NR as [_ ?].
    - intros j Hj. apply set_remove_elem. split.
      + apply S. rewrite <- Q. by right.
      + intros ->. by apply NoDup_cons in NR as [? _].
    - by apply assoc_push_keys.
  Qed.

  Definition bounded (is : list nat) := forall i, i ∈ is -> (i < length inputs)%nat.
  Definition usable (by_in : utxo -> option Z) (rel : list nat) :=
    forall i, i ∈ rel -> exists u, inputs !! i = Some u /\ is_Some (by_in u).

  Lemma parts_sub av0 rel av asc : parts av0 rel av asc -> av ⊆+ av0.
  Proof. intros [N P R S K]. rewrite <- P. apply submseteq_inserts_r. reflexivity. Qed.

  Lemma cover_spec av0 by_in o needed (e : E) fuel : forall added rel av pos asc,
    parts av0 rel av asc -> usable by_in rel -> (length rel < fuel)%nat ->
    match cover rnd inputs fuel e by_in o needed added rel av pos asc with
    | SDone (rel', av', pos', asc') =>
        parts av0 rel' av' asc' /\ usable by_in rel' /\
        (forall p, p ∈ keys asc' -> p = o \/ p ∈ keys asc) /\
        (added < needed -> o ∈ keys asc')
    | SFail (_, av') => av' ⊆+ av0
    | SPanic | SLoop => False
    end.
  Proof.
    induction fuel as [|fuel IH]; intros added rel av pos asc P U F; [lia|]. cbn [cover].
    destruct (added <? needed) eqn:Hn.
    2: { apply Z.ltb_ge in Hn. split; [done|]. split; [done|]. split; [tauto|lia]. }
    destruct rel as [|r0 rel0] eqn:Er; [by eapply parts_sub|]. rewrite <- Er in *.
    assert (Hlen : (0 < length rel)%nat) by (rewrite Er; simpl; lia).
    destruct (swap_remove_spec (rnd pos mod length rel) rel) as (i & rel' & -> & Q).
    { apply Nat.mod_upper_bound. lia. }
    assert (Hi : i ∈ rel) by (rewrite <- Q; left).
    destruct (U i Hi) as (u & -> & [q ->]).
    assert (Hl : (S (length rel') = length rel)%nat) by (by rewrite <- Q).
    specialize (IH (added + q) rel' (set_remove i av) (S pos) (assoc_push o i asc) (parts_take _ _ _ _ _ _ _ P Q)).
    assert (U' : usable by_in rel'). { intros j Hj. apply U. rewrite <- Q. by right. }
    specialize (IH U' ltac:(lia)).
    destruct (assoc_push_keys o i asc (p_keys _ _ _ _ P)) as [_ K].
    destruct (cover rnd inputs fuel e by_in o needed (added + q) rel' (set_remove i av) (S pos) (assoc_push o i asc))
      as [[[[rel'' av''] pos''] asc'']|[e' av'']| |] eqn:Ec; [|done|done|done].
    destruct IH as (P' & U'' & K' & A').
    split; [done|]. split; [done|]. split.
    - intros p Hp. destruct (K' p Hp) as [|Hp']; [tauto|]. apply K in Hp'. tauto.
    - intros _. destruct (decide (added + q < needed)) as [H|H]; [by apply A'|].
      assert (E2 : asc'' = assoc_push o i asc).
      { destruct fuel; cbn [cover] in Ec; (replace (added + q <? needed) with false in Ec by (symmetry; apply Z.ltb_ge; lia));
          congruence. }
      subst asc''. apply K. tauto.
  Qed.

  Lemma cover_all_spec av0 by_in by_out (e : E) outs : forall rel av pos asc,
    parts av0 rel av asc -> usable by_in rel ->
    match cover_all rnd inputs e by_in by_out outs rel av pos asc with
    | SDone (rel', av', pos', asc') =>
        parts av0 rel' av' asc' /\ usable by_in rel' /\
        (forall p, p ∈ keys asc' -> p ∈ outs \/ p ∈ keys asc) /\
        (forall o q, o ∈ outs -> by_out o = Some q -> 0 < q -> o ∈ keys asc')
    | SFail (_, av') => av' ⊆+ av0
    | SPanic | SLoop => False
    end.
  Proof.
    assert (mono : forall outs rel av pos asc, parts av0 rel av asc -> usable by_in rel -> forall p, p ∈ keys asc ->
      match cover_all rnd inputs e by_in by_out outs rel av pos asc with
      | SDone (_, _, _, asc') => p ∈ keys asc' | _ => True end).
    { assert (mono1 : forall fuel o needed added rel av pos asc p, NoDup (keys asc) -> p ∈ keys asc ->
        match cover rnd inputs fuel e by_in o needed added rel av pos asc with
        | SDone (_, _, _, asc') => NoDup (keys asc') /\ p ∈ keys asc' | _ => True end).
      { induction fuel as [|fuel IH]; intros o needed added rel av pos asc p N Hp; cbn [cover];
          (destruct (added <? needed); [|done]); [done|].
        destruct rel as [|r0 rel0]; [done|]. set (rel := r0 :: rel0).
        destruct (swap_remove (rnd pos mod length rel) rel) as [[i rel']|]; [|done].
        destruct (inputs !! i) as [u|]; [|done]. destruct (by_in u) as [q|]; [|done].
        destruct (assoc_push_keys o i asc N) as [N' K]. apply IH; [done|]. apply K. tauto. }
      intro outs0. induction outs0 as [|o outs0 IH]; intros rel av pos asc P U p Hp; cbn [cover_all]; [done|].
      destruct (by_out o) as [needed|]; [|done].
      pose proof (mono1 (S (length rel)) o needed 0 rel av pos asc p (p_keys _ _ _ _ P) Hp) as M.
      pose proof (cover_spec av0 by_in o needed e (S (length rel)) 0 rel av pos asc P U ltac:(lia)) as C.
      destruct (cover rnd inputs (S (length rel)) e by_in o needed 0 rel av pos asc)
        as [[[[rel' av'] pos'] asc']|[e' av']| |]; [|done|done|done].
      apply IH; tauto. }
    induction outs as [|o outs IH]; intros rel av pos asc P U; cbn [cover_all].
    { split; [done|]. split; [done|]. split; [tauto|]. intros o q Ho. by apply elem_of_nil in Ho. }
    destruct (by_out o) as [needed|] eqn:Eo; [|by eapply parts_sub].
    pose proof (cover_spec av0 by_in o needed e (S (length rel)) 0 rel av pos asc P U ltac:(lia)) as C.
    destruct (cover rnd inputs (S (length rel)) e by_in o needed 0 rel av pos asc)
      as [[[[rel' av'] pos'] asc']|[e' av']| |]; [|done|done|done].
    destruct C as (P' & U' & K' & A').
    pose proof (mono outs rel' av' pos' asc' P' U') as M. specialize (IH rel' av' pos' asc' P' U').
    destruct (cover_all rnd inputs e by_in by_out outs rel' av' pos' asc')
      as [[[[rel'' av''] pos''] asc'']|[e'' av'']| |]; [|done|done|done].
    destruct IH as (P'' & U'' & K'' & A''). split; [done|]. split; [done|]. split.
    - intros p Hp. destruct (K'' p Hp) as [H|H]; [left; by right|].
      destruct (K' p H) as [ -> |]; [left; left|tauto].
    - intros p q Hp Hq Hpos. apply elem_of_cons in Hp as [ -> |Hp].
      + rewrite Eo in Hq. injection Hq as ->. apply M. by apply A'.
      + by eapply A''.
  Qed.

  (** ** Phase 2 *)
  (** every amount the comparison reads fits in 64 bits (three times the wanted amount too, in a checked build) *)
  Definition fits (outs : list uout) : Prop :=
    (forall u, u ∈ inputs -> is_Some (to_u64 sc (u_value u))) /\
    (forall o, o ∈ outs -> exists m, to_u64 sc (o_value o) = Some m /\ (chk = true -> 3 * m < 2 ^ 64)).

  Lemma to_u64_nonneg v m : 0 < sc -> to_u64 sc v = Some m -> 0 <= m.
  Proof.
    unfold to_u64. intro Hs. destruct (v <? 0) eqn:Ev; [done|]. apply Z.ltb_ge in Ev.
    destruct (v / sc <? 2 ^ 64); [|done]. intros [= <-]. by apply Z.div_pos.
  Qed.
  Lemma should_improve_total cur new min m : 0 < sc ->
    is_Some (to_u64 sc cur) -> is_Some (to_u64 sc new) -> to_u64 sc min = Some m -> (chk = true -> 3 * m < 2 ^ 64) ->
    is_Some (should_improve chk sc cur new min).
  Proof.
    intros Hs [c Hc] [n Hn] Hm Hk. unfold should_improve. rewrite Hc, Hn, Hm. unfold mul_u64.
    pose proof (to_u64_nonneg _ _ Hs Hm). destruct chk.
    - specialize (Hk eq_refl). rewrite (proj2 (Z.ltb_lt (2 * m) (2 ^ 64))) by lia.
      rewrite (proj2 (Z.ltb_lt (3 * m) (2 ^ 64))) by lia. eauto.
    - destruct (2 * m <? 2 ^ 64), (3 * m <? 2 ^ 64); eauto.
  Qed.

  Lemma improve_spec av0 (e : E) o is : forall rest rel av pos,
    NoDup av0 -> av ++ is ++ rest ≡ₚ av0 -> NoDup rel -> (forall i, i ∈ rel -> i ∈ av) -> rel <> [] -> bounded av0 ->
    match improve rnd chk sc inputs e o is rel av pos with
    | SDone (is', rel', av', pos') =>
        av' ++ is' ++ rest ≡ₚ av0 /\ NoDup rel' /\ (forall i, i ∈ rel' -> i ∈ av') /\ rel' <> []
    | SFail (_, av') => False
    | SPanic => 0 < sc -> ~ fits [o]
    | SLoop => False
    end.
  Proof.
    induction is as [|i is IH]; intros rest rel av pos N P R S Hne B; cbn [improve]; [done|].
    destruct (length rel =? 0)%nat eqn:El.
    { apply Nat.eqb_eq in El. by apply nil_length_inv in El. }
    apply Nat.eqb_neq in El.
    set (r := (rnd pos mod length rel)%nat).
    assert (Hr : (r < length rel)%nat) by (apply Nat.mod_upper_bound; lia).
    destruct (lookup_lt_is_Some_2 rel r Hr) as [j Hj]. rewrite Hj.
    assert (Hjr : j ∈ rel) by (by eapply elem_of_list_lookup_2).
    assert (Hja : j ∈ av) by auto.
    assert (Hj0 : j ∈ av0) by (rewrite <- P; apply elem_of_app; by left).
    assert (Hi0 : i ∈ av0). { rewrite <- P. apply elem_of_app. right. left. }
    destruct (lookup_lt_is_Some_2 inputs i (B i Hi0)) as [u Hu]. rewrite Hu.
    destruct (lookup_lt_is_Some_2 inputs j (B j Hj0)) as [v Hv]. rewrite Hv.
    destruct (should_improve chk sc (u_value u) (u_value v) (o_value o)) as [swap|] eqn:Es.
    2: { intros Hs [F1 F2]. destruct (F2 o) as (m & Fm & Fk); [left|].
         destruct (should_improve_total (u_value u) (u_value v) (o_value o) m Hs) as [b Eb]; try done.
         - apply F1. by eapply elem_of_list_lookup_2.
         - apply F1. by eapply elem_of_list_lookup_2.
         - congruence. }
    assert (NP : NoDup (av ++ (i :: is) ++ rest)) by (by rewrite P).
    apply NoDup_app in NP as (NA & ND & NI).
    assert (Hia : i ∉ av). { intro F. apply (ND i F). left. }
    assert (Hij : i <> j) by congruence.
    destruct swap; cbn [fst snd].
    - (* swapped *)
      assert (Q : set_remove j (set_insert i av) ++ is ++ (j :: rest) ≡ₚ av0).
      { rewrite <- P. rewrite (app_assoc _ is), <- Permutation_middle.
        change (j :: (set_remove j (set_insert i av) ++ is) ++ rest)
          with (((j :: set_remove j (set_insert i av)) ++ is) ++ rest).
        rewrite set_remove_perm; [|rewrite set_insert_perm by done; by apply NoDup_cons|].
        2: { rewrite set_insert_perm by done. by right. }
        rewrite set_insert_perm by done. rewrite <- !app_assoc. cbn [app].
        apply Permutation_middle. }
      assert (Rperm : j :: <[r:=i]> rel ≡ₚ i :: rel).
      { rewrite <- (take_drop_middle rel r j Hj) at 2. rewrite insert_take_drop by done.
        rewrite <- !Permutation_middle. apply Permutation_swap. }
      assert (Nir : NoDup (i :: rel)). { apply NoDup_cons. split; [|done]. intro. apply Hia. auto. }
      assert (Njr : NoDup (j :: <[r:=i]> rel)) by (by rewrite Rperm).
      apply NoDup_cons in Njr as [Nj1 Nj2].
      specialize (IH (j :: rest) (<[r:=i]> rel) (set_remove j (set_insert i av)) (Datatypes.S pos) N Q Nj2).
      assert (S' : forall x, x ∈ <[r:=i]> rel -> x ∈ set_remove j (set_insert i av)).
      { intros x Hx. apply set_remove_elem. split.
        - rewrite set_insert_perm by done.
          assert (Hx' : x ∈ i :: rel) by (rewrite <- Rperm; by right).
          apply elem_of_cons in Hx' as [ -> |Hx']; [left|right; auto].
        - intros ->. done. }
      specialize (IH S').
      assert (Hne' : <[r:=i]> rel <> []).
      { intro F. apply (f_equal length) in F. rewrite insert_length in F. simpl in F. lia. }
      specialize (IH Hne' B).
      destruct (improve rnd chk sc inputs e o is (<[r:=i]> rel) (set_remove j (set_insert i av)) (Datatypes.S pos))
        as [[[[is' rel'] av'] pos']|[e' av']| |]; [|done|done|done].
      destruct IH as (P' & R' & S'' & H'). split; [|done]. rewrite <- P'. cbn [app].
      rewrite <- (Permutation_middle is' rest j). reflexivity.
    - assert (Q : av ++ is ++ (i :: rest) ≡ₚ av0).
      { rewrite <- P. f_equiv. cbn [app]. symmetry. apply Permutation_middle. }
      specialize (IH (i :: rest) rel av (Datatypes.S pos) N Q R S Hne B).
      destruct (improve rnd chk sc inputs e o is rel av (Datatypes.S pos)) as [[[[is' rel'] av'] pos']|[e' av']| |];
        [|done|done|done].
      destruct IH as (P' & R' & S'' & H'). split; [|done]. rewrite <- P'. cbn [app].
      rewrite <- (Permutation_middle is' rest i). reflexivity.
  Qed.

  Lemma improve_all_spec av0 (e : E) outs : forall rel av pos asc,
    parts av0 rel av asc -> rel <> [] -> bounded av0 ->
    match improve_all rnd chk sc inputs e outs rel av pos asc with
    | SDone (av', pos', asc') =>
        av' ++ ids asc' ≡ₚ av0 /\ keys asc' = keys asc
    | SFail (_, av') => av' ⊆+ av0 /\ exists o, o ∈ outs /\ o ∉ keys asc
    | SPanic => 0 < sc -> ~ fits outs
    | SLoop => False
    end.
  Proof.
    induction outs as [|o outs IH]; intros rel av pos asc P Hne B; cbn [improve_all].
    { split; [apply P|done]. }
    destruct (assoc_get o asc) as [is|] eqn:Eo.
    2: { split; [by eapply parts_sub|]. exists o. split; [left|]. intro F. apply assoc_get_key in F as [? ?]. congruence. }
    assert (Hk : o ∈ keys asc) by (apply assoc_get_key; eauto).
    destruct (assoc_set_ids o asc is Eo) as (rest & I1 & I2).
    pose proof (improve_spec av0 e o is rest rel av pos (p_nodup _ _ _ _ P)) as C.
    assert (Q : av ++ is ++ rest ≡ₚ av0). { rewrite <- I1. apply P. }
    specialize (C Q (p_rel _ _ _ _ P) (p_sub _ _ _ _ P) Hne B).
    destruct (improve rnd chk sc inputs e o is rel av pos) as [[[[is' rel'] av'] pos']|[e' av']| |]; [|done| |done].
    2: { intros Hs [F1 F2]. apply (C Hs). split; [done|]. intros p Hp. apply elem_of_list_singleton in Hp as ->.
         apply F2. left. }
    destruct C as (Q' & R' & S' & H').
    assert (P' : parts av0 rel' av' (assoc_set o is' asc)).
    { split; [apply P| |done|done|].
      - by rewrite I2.
      - rewrite assoc_set_key by done. apply P. }
    specialize (IH rel' av' pos' (assoc_set o is' asc) P' H' B).
    rewrite assoc_set_key in IH by done.
    destruct (improve_all rnd chk sc inputs e outs rel' av' pos' (assoc_set o is' asc))
      as [[[av'' pos''] asc'']|[e'' av'']| |]; [done| | |done].
    - destruct IH as (? & p & ? & ?). split; [done|]. exists p. split; [by right|done].
    - intros Hs [F1 F2]. apply (IH Hs). split; [done|]. intros p Hp. apply F2. by right.
  Qed.

  (** ** The whole helper *)
  Lemma relevant_spec by_in av : bounded av ->
    exists rel, relevant inputs by_in av = Some rel /\ usable by_in rel /\ (forall i, i ∈ rel -> i ∈ av) /\
      (NoDup av -> NoDup rel).
  Proof.
    induction av as [|i av IH]; intro B; cbn [relevant].
    { exists []. split; [done|]. split; [intros i Hi; by apply elem_of_nil in Hi|]. done. }
    destruct (lookup_lt_is_Some_2 inputs i) as [u Hu]; [apply B; left|]. rewrite Hu.
    destruct IH as (rel & E1 & U & S & N); [intros j Hj; apply B; by right|]. rewrite E1. cbn [fmap option_fmap option_map].
    destruct (by_in u) as [q|] eqn:Eq.
    - exists (i :: rel). split; [done|]. split; [|split].
      + intros j Hj. apply elem_of_cons in Hj as [ -> |Hj]; [|by apply U]. exists u. rewrite Eq. eauto.
      + intros j Hj. apply elem_of_cons in Hj as [ -> |Hj]; [left|right; auto].
      + intros Nav. apply NoDup_cons in Nav as [N1 N2]. apply NoDup_cons. split; [|auto]. intro. apply N1. auto.
    - exists rel. split; [done|]. split; [done|]. split; [intros j Hj; right; auto|].
      intros Nav. apply NoDup_cons in Nav as [N1 N2]. auto.
  Qed.

  Definition wanted (by_out : uout -> option Z) (fixed : list uout) : list uout :=
    filter (fun o => is_Some (by_out o)) fixed.

  Lemma helper_spec by_in by_out fixed s : NoDup (r_av s) -> bounded (r_av s) ->
    match ri_helper est rnd chk sc inputs by_in by_out fixed s with
    | SDone (s', c) =>
        exists billed us, c ++ r_av s' ≡ₚ r_av s /\ NoDup c /\ (forall i, i ∈ billed <-> i ∈ c) /\
          (NoDup (wanted by_out fixed) -> billed ≡ₚ c) /\ at_indices inputs billed = Some us /\ ledger s us s'
    | SFail (_, av') => av' ⊆+ r_av s
    | SPanic => 0 < sc -> ~ fits fixed
    | SLoop => False
    end.
  Proof.
    intros N B. unfold ri_helper.
    destruct (relevant_spec by_in (r_av s) B) as (rel & -> & U & S & NR). specialize (NR N).
    change (filter (fun o => is_Some (by_out o)) fixed) with (wanted by_out fixed).
    set (outs := sort_outputs (fun o => default 0 (by_out o)) (wanted by_out fixed)).
    assert (Pouts : outs ≡ₚ wanted by_out fixed) by apply sort_outputs_perm.
    assert (P0 : parts (r_av s) rel (r_av s) []).
    { split; [done| |done|done|apply NoDup_nil_2]. cbn. by rewrite app_nil_r. }
    pose proof (cover_all_spec (r_av s) by_in by_out (r_est s) (rev outs) rel (r_av s) (r_pos s) [] P0 U) as C.
    destruct (cover_all rnd inputs (r_est s) by_in by_out (rev outs) rel (r_av s) (r_pos s) [])
      as [[[[rel' av'] pos'] asc]|[e' av']| |]; [|done|done|done].
    destruct C as (P & U' & K & A).
    assert (K' : forall p, p ∈ keys asc -> p ∈ outs).
    { intros p Hp. destruct (K p Hp) as [H|H]; [|by apply elem_of_nil in H].
      rewrite elem_of_list_In in *. by apply in_rev. }
    set (mid := if (length rel' =? 0)%nat then SDone (av', pos', asc)
                else improve_all rnd chk sc inputs (r_est s) outs rel' av' pos' asc).
    assert (M : match mid with
      | SDone (av'', pos'', asc') => av'' ++ ids asc' ≡ₚ r_av s /\ keys asc' = keys asc
      | SFail (_, av'') => av'' ⊆+ r_av s
      | SPanic => 0 < sc -> ~ fits outs
      | SLoop => False end).
    { unfold mid. destruct (length rel' =? 0)%nat eqn:El; [split; [apply P|done]|].
      apply Nat.eqb_neq in El.
      pose proof (improve_all_spec (r_av s) (r_est s) outs rel' av' pos' asc P) as I.
      assert (rel' <> []) by (intros ->; done). specialize (I H B).
      destruct (improve_all rnd chk sc inputs (r_est s) outs rel' av' pos' asc) as [[[? ?] ?]|[? ?]| |]; tauto. }
    destruct mid as [[[av'' pos''] asc']|[e' av'']| |]; [|done| |done].
    2: { intros Hs [F1 F2]. apply (M Hs). split; [done|]. intros o Ho. apply F2.
         rewrite Pouts in Ho. by apply elem_of_list_filter in Ho as [_ ?]. }
    destruct M as (Q & KK).
    assert (Bi : forall i, i ∈ ids asc' -> (i < length inputs)%nat).
    { intros i Hi. apply B. rewrite <- Q. apply elem_of_app. by right. }
    pose proof (finalize_spec outs asc' (Ri av'' (r_est s) (r_assets s) (r_total s) (r_fee s) pos'') [] Bi) as F.
    destruct (finalize est inputs outs asc' (Ri av'' (r_est s) (r_assets s) (r_total s) (r_fee s) pos'') [])
      as [[s' c]|[e' av3]| |]; [| |done|done].
    2: { rewrite F. cbn [r_av]. rewrite <- Q. apply submseteq_inserts_r. reflexivity. }
    destruct F as (us & F1 & F2 & F3 & F4 & F5 & F6 & F7). cbn [r_av] in F3.
    assert (NK : NoDup (keys asc')). { rewrite KK. apply P. }
    assert (Hset : forall i, i ∈ flat_map (of_key asc') outs <-> i ∈ ids asc').
    { intro i. rewrite ids_keys by done. rewrite !elem_of_flat_map. split; intros (o & Ho & Hi); exists o; (split; [|done]).
      - by apply F7.
      - apply K'. by rewrite <- KK. }
    assert (Hc : forall i, i ∈ c <-> i ∈ ids asc').
    { intro i. rewrite F5, <- Hset, elem_of_nil. tauto. }
    assert (Nids : NoDup (ids asc')).
    { rewrite <- Q in N. by apply NoDup_app in N as (_ & _ & ?). }
    assert (Nc : NoDup c) by (apply F6, NoDup_nil_2).
    assert (Pc : c ≡ₚ ids asc') by (by apply NoDup_Permutation).
    exists (flat_map (of_key asc') outs), us.
    split. { rewrite F3, Pc, Permutation_app_comm. exact Q. }
    split; [done|]. split. { intro i. rewrite Hset, Hc. reflexivity. }
    split. { intro Nw. rewrite Pc, (ids_keys asc') by done. apply Permutation_flat_map.
      apply NoDup_Permutation; [by rewrite Pouts|done|]. intro o. split; [apply F7|]. intro Ho. apply K'. by rewrite <- KK. }
    split; [done|].
    destruct F2 as (f & G1 & G2 & G3 & G4). exists f. done.
  Qed.
End Random.
