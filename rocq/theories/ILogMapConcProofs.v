From Coq Require Import Lia ZArith.
From stdpp Require Import numbers list gmap.
From Verif Require Import FraosModel FraosSpec FraosProofs FraosLogProofs FraosCrashProofs FraosHistProofs ILogMapModel ILogMapSpec ILogMapProofs.

Section Conc.
Context {K V : Type} (c : codec K V).
Hypothesis Hc : codec_ok c.
Notation ev := (istep_ev (K := K) (V := V)).

Definition pairs (tr : list ev) : list (K * V) := concat (map (fun e => match e with ELog _ k v => [(k, v)] | _ => [] end) tr).
Definition entries_of (I : list (K * nat)) : sled_index := map (fun e => (enc_key c e.1, json_of_pos (N.of_nat e.2))) I.
(** what the index says of a key *)
Definition points (I : list (K * nat)) (k : K) (p : nat) : Prop := exists I1 I2, I = I1 ++ (k, p) :: I2 /\ forall q, (k, q) ∉ I2.

Lemma pairs_app a b : pairs (a ++ b) = pairs a ++ pairs b.
Proof. unfold pairs. rewrite map_app, concat_app. reflexivity. Qed.
Lemma entries_none I k : (forall q, (k, q) ∉ I) -> sled_get (entries_of I) (enc_key c k) = None.
Proof.
  destruct Hc as [Hk _]. induction I as [|[k' q] I IH]; intro H; [reflexivity|]. simpl. rewrite IH by (intros q' Hq; apply (H q'); right; exact Hq).
  destruct (decide _) as [He|]; [|reflexivity]. apply Hk in He as ->. exfalso. apply (H q). left.
Qed.
Lemma entries_points I k p : points I k p -> sled_get (entries_of I) (enc_key c k) = Some (json_of_pos (N.of_nat p)).
Proof.
  intros (I1 & I2 & -> & Hn). unfold entries_of. rewrite map_app. cbn [map]. rewrite sled_get_app. simpl. fold (entries_of I2).
  rewrite entries_none by exact Hn. destruct (decide _); [reflexivity|congruence].
Qed.
Lemma points_dec I k : (forall q, (k, q) ∉ I) \/ exists p, points I k p.
Proof.
  induction I as [|[k' q] I [IH|[p (I1 & I2 & -> & Hn)]]].
  - left. intros q H. inversion H.
  - destruct (decide (enc_key c k' = enc_key c k)) as [He|He].
    + apply Hc in He as ->. right. exists q, [], I. auto.
    + left. intros q' H. inversion H; subst; [congruence|]. eapply IH; eauto.
  - right. exists p, ((k', q) :: I1), I2. auto.
Qed.
Lemma points_snoc_other I k p k' q : k' <> k -> points I k p -> points (I ++ [(k', q)]) k p.
Proof.
  intros Hk (I1 & I2 & -> & Hn). exists I1, (I2 ++ [(k', q)]). split; [rewrite <- app_assoc; reflexivity|].
  intros x Hx. apply elem_of_app in Hx as [Hx|Hx]; [eapply Hn; eauto|]. apply elem_of_list_singleton in Hx. congruence.
Qed.
Lemma points_snoc I k p : points (I ++ [(k, p)]) k p.
Proof. exists I, []. split; [reflexivity|]. intros q H. inversion H. Qed.

Record cinv (s : icst (K := K)) (B : list N) (L : list placed) (WL : list (K * V)) (I : list (K * nat)) : Prop := CInv {
  ci_db : db_ok (storage (ic_ilm s)) B L;
  ci_log : map snd L = map (fun p => enc_val c p.2) WL;
  ci_idx : key_to_seqno (ic_ilm s) = Some (entries_of I);
  ci_in : forall k p, (k, p) ∈ I -> exists v, WL !! p = Some (k, v);
  ci_logged : forall t k p, ic_pc s !! t = Some (PLogged k p) -> exists v, WL !! p = Some (k, v);
  ci_found : forall t k p, ic_pc s !! t = Some (PFound k p) -> exists v, WL !! N.to_nat p = Some (k, v) }.

Lemma ci_len s B L WL I : cinv s B L WL I -> length L = length WL.
Proof. intro H. rewrite <- (map_length snd), (ci_log _ _ _ _ _ H), map_length. reflexivity. Qed.
Lemma ci_small s B L WL I : cinv s B L WL I -> (N.of_nat (length WL) < 2 ^ 60)%N.
Proof.
  intro H. rewrite <- (ci_len _ _ _ _ _ H). assert (HL : (N.of_nat (16 * length L) < 2 ^ 64)%N) by apply (do_fits _ _ _ (ci_db _ _ _ _ _ H)).
  change (2 ^ 64)%N with (16 * 2 ^ 60)%N in HL. lia.
Qed.
Lemma ci_item s B L WL I i k v : cinv s B L WL I -> WL !! i = Some (k, v) ->
  item_next c (storage (ic_ilm s)) (N.of_nat i) = (Some (IOk v), N.of_nat (S i)).
Proof.
  intros H Hi. assert (Hlt := lookup_lt_Some _ _ _ Hi). unfold item_next.
  rewrite (iter_next_ok _ B L) by (try apply (ci_db _ _ _ _ _ H); rewrite (ci_len _ _ _ _ _ H); lia).
  rewrite Nat2N.id. assert (G : map snd L !! i = Some (enc_val c v)) by (rewrite (ci_log _ _ _ _ _ H), list_lookup_fmap, Hi; reflexivity).
  rewrite list_lookup_fmap in G. destruct (L !! i) as [p|]; [|discriminate]. injection G as ->. destruct Hc as (_ & -> & _). f_equal. lia.
Qed.
Lemma ci_from s B L WL I k p : cinv s B L WL I -> points I k p -> ilm_iter_from c (ic_ilm s) k = IOk (Some (N.of_nat p)).
Proof.
  intros H Hp. unfold ilm_iter_from. rewrite (ci_idx _ _ _ _ _ H), (entries_points _ _ _ Hp).
  destruct Hp as (I1 & I2 & -> & _). destruct (ci_in _ _ _ _ _ H k p) as [v Hv]; [apply elem_of_app; right; left|].
  assert (Hlt := lookup_lt_Some _ _ _ Hv). assert (Hs := ci_small _ _ _ _ _ H). rewrite json_pos; [reflexivity|].
  change (2 ^ 64)%N with (16 * 2 ^ 60)%N. lia.
Qed.
Lemma ci_from_none s B L WL I k : cinv s B L WL I -> (forall q, (k, q) ∉ I) -> ilm_iter_from c (ic_ilm s) k = IOk None.
Proof. intros H Hn. unfold ilm_iter_from. rewrite (ci_idx _ _ _ _ _ H), entries_none by exact Hn. reflexivity. Qed.
Lemma ci_get s B L WL I k p v : cinv s B L WL I -> points I k p -> WL !! p = Some (k, v) -> ilm_get c (ic_ilm s) k = IOk (Some v).
Proof. intros H Hp Hv. unfold ilm_get. rewrite (ci_from _ _ _ _ _ _ _ H Hp), (ci_item _ _ _ _ _ _ _ _ H Hv). reflexivity. Qed.

(** the appended bytes of a step *)
Definition ev_pairs (e : ev) : list (K * V) := match e with ELog _ k v => [(k, v)] | _ => [] end.
Definition ev_bytes (e : ev) : nat := match e with ELog _ _ v => length (enc_val c v) | _ => 0 end.
Definition ev_idx (s : icst (K := K)) (e : ev) : list (K * nat) :=
  match e with EKey t => match ic_pc s !! t with Some (PLogged k p) => [(k, p)] | _ => [] end | _ => [] end.

Lemma icstep_inv k s e s' B L WL I : cfg_ok k -> cinv s B L WL I ->
  (N.of_nat (length B + ev_bytes e) < 2 ^ 64)%N -> (N.of_nat (16 * (length L + length (ev_pairs e))) < 2 ^ 64)%N ->
  icstep c k s e s' ->
  exists B' L', cinv s' B' L' (WL ++ ev_pairs e) (I ++ ev_idx s e) /\ length B' = length B + ev_bytes e /\ length L' = length L + length (ev_pairs e) /\
    (forall t key v, e = ELog t key v -> ic_pc s' = <[t := PLogged key (length WL)]> (ic_pc s)).
Proof.
  intros Hk H F1 F2 St. inversion St; subst; cbn [ev_pairs ev_bytes ev_idx ic_pc ic_ilm] in *; rewrite ?app_nil_r in *.
  - assert (Hcc : concat [enc_val c v] = enc_val c v) by (simpl; apply app_nil_r). simpl length in F2.
    assert (Hfit : fits (B ++ concat [enc_val c v]) (L ++ place (length B) [enc_val c v])) by (rewrite Hcc; split; rewrite app_length, ?place_length; simpl; lia).
    destruct (db_append_ok k no_faults no_faults _ B L [enc_val c v] d _ Hk (ci_db _ _ _ _ _ H) ltac:(repeat split) ltac:(repeat split) Hfit H2)
      as [(G & _)|[(_ & G & _)|[(_ & Hne & G & Hok)|(_ & Hne & _ & _ & G)]]]; try discriminate.
    + exfalso. apply G. constructor; [apply Hc|constructor].
    + injection G as ->. rewrite Hcc in Hok. exists (B ++ enc_val c v), (L ++ place (length B) [enc_val c v]).
      split; [|split; [rewrite app_length; reflexivity|split; [rewrite app_length, place_length; reflexivity|]]].
      * split; cbn [ic_ilm ic_pc storage key_to_seqno].
        -- exact Hok.
        -- rewrite map_app, (ci_log _ _ _ _ _ H), place_snd, map_app. reflexivity.
        -- rewrite <- (ci_idx _ _ _ _ _ H). symmetry. exact H1.
        -- intros k' p Hi. destruct (ci_in _ _ _ _ _ H _ _ Hi) as [v' Hv]. exists v'. apply lookup_app_l_Some. exact Hv.
        -- intros t' k' p Hi. rewrite (ci_len _ _ _ _ _ H) in Hi. destruct (decide (t' = t)) as [->|Ht].
           ++ rewrite lookup_insert in Hi. injection Hi as <- <-. exists v. rewrite list_lookup_middle; reflexivity.
           ++ rewrite lookup_insert_ne in Hi by congruence. destruct (ci_logged _ _ _ _ _ H _ _ _ Hi) as [v' Hv]. exists v'. apply lookup_app_l_Some. exact Hv.
        -- intros t' k' p Hi. destruct (decide (t' = t)) as [->|Ht].
           ++ rewrite lookup_insert in Hi. discriminate.
           ++ rewrite lookup_insert_ne in Hi by congruence. destruct (ci_found _ _ _ _ _ H _ _ _ Hi) as [v' Hv]. exists v'. apply lookup_app_l_Some. exact Hv.
      * intros ? ? ? [= <- <- <-]. rewrite (ci_len _ _ _ _ _ H). reflexivity.
    + tauto.
  - exists B, L. split; [|split; [lia|split; [simpl; lia|discriminate]]]. rewrite H0. split; cbn [ic_ilm ic_pc storage key_to_seqno].
    + apply (ci_db _ _ _ _ _ H).
    + apply (ci_log _ _ _ _ _ H).
    + pose proof (ci_idx _ _ _ _ _ H) as G. cbn [ic_ilm] in G. rewrite H1 in G. injection G as ->. unfold sled_insert, entries_of. rewrite map_app. reflexivity.
    + intros k' p Hi. apply elem_of_app in Hi as [Hi|Hi]; [apply (ci_in _ _ _ _ _ H _ _ Hi)|]. apply elem_of_list_singleton in Hi. injection Hi as -> ->.
      apply (ci_logged _ _ _ _ _ H _ _ _ H0).
    + intros t' k' p Hi. apply lookup_delete_Some in Hi as [_ Hi]. apply (ci_logged _ _ _ _ _ H _ _ _ Hi).
    + intros t' k' p Hi. apply lookup_delete_Some in Hi as [_ Hi]. apply (ci_found _ _ _ _ _ H _ _ _ Hi).
  - exists B, L. split; [exact H|split; [lia|split; [simpl; lia|discriminate]]].
  - exists B, L. split; [|split; [lia|split; [simpl; lia|discriminate]]]. split; cbn [ic_ilm ic_pc storage key_to_seqno].
    + apply (ci_db _ _ _ _ _ H).
    + apply (ci_log _ _ _ _ _ H).
    + apply (ci_idx _ _ _ _ _ H).
    + apply (ci_in _ _ _ _ _ H).
    + intros t' k' p Hi. destruct (decide (t' = t)) as [->|Ht]; [rewrite lookup_insert in Hi; discriminate|].
      rewrite lookup_insert_ne in Hi by congruence. apply (ci_logged _ _ _ _ _ H _ _ _ Hi).
    + intros t' k' p Hi. destruct (decide (t' = t)) as [->|Ht].
      * rewrite lookup_insert in Hi. injection Hi as <- <-. destruct (points_dec I key) as [Hn|[p Hp]].
        -- pose proof (ci_from_none _ _ _ _ _ _ H Hn) as G. cbn [ic_ilm] in G. congruence.
        -- pose proof (ci_from _ _ _ _ _ _ _ H Hp) as G. cbn [ic_ilm] in G. rewrite H1 in G. injection G as ->. rewrite Nat2N.id.
           destruct Hp as (I1 & I2 & -> & _). apply (ci_in _ _ _ _ _ H). apply elem_of_app. right. left.
      * rewrite lookup_insert_ne in Hi by congruence. apply (ci_found _ _ _ _ _ H _ _ _ Hi).
  - exists B, L. split; [|split; [lia|split; [simpl; lia|discriminate]]]. split; cbn [ic_ilm ic_pc storage key_to_seqno].
    + apply (ci_db _ _ _ _ _ H).
    + apply (ci_log _ _ _ _ _ H).
    + apply (ci_idx _ _ _ _ _ H).
    + apply (ci_in _ _ _ _ _ H).
    + intros t' k' p Hi. apply lookup_delete_Some in Hi as [_ Hi]. apply (ci_logged _ _ _ _ _ H _ _ _ Hi).
    + intros t' k' p Hi. apply lookup_delete_Some in Hi as [_ Hi]. apply (ci_found _ _ _ _ _ H _ _ _ Hi).
Qed.

Definition tr_bytes (tr : list ev) : nat := sum_list_with ev_bytes tr.
Lemma pairs_snoc tr e : pairs (tr ++ [e]) = pairs tr ++ ev_pairs e.
Proof. rewrite pairs_app. unfold pairs at 2. simpl. rewrite app_nil_r. reflexivity. Qed.

Lemma icrun_inv k s0 B0 L0 W0 I0 : cfg_ok k -> cinv s0 B0 L0 W0 I0 -> forall tr s, icrun c k s0 tr s ->
  (N.of_nat (length B0 + tr_bytes tr) < 2 ^ 64)%N -> (N.of_nat (16 * (length L0 + length (pairs tr))) < 2 ^ 64)%N ->
  exists B L I, cinv s B L (W0 ++ pairs tr) I /\ length B = length B0 + tr_bytes tr /\ length L = length L0 + length (pairs tr) /\ I0 `prefix_of` I.
Proof.
  intros Hk H0 tr s Hr. induction Hr as [s0|s0 tr s1 e s2 Hr IH St]; intros F1 F2.
  - exists B0, L0, I0. unfold pairs, tr_bytes. simpl. rewrite app_nil_r. split; [exact H0|]. split; [lia|]. split; [lia|reflexivity].
  - unfold tr_bytes in *. rewrite pairs_snoc, sum_list_with_app, ?app_length in *. simpl sum_list_with in *.
    destruct IH as (B & L & I & H & HB & HL & HI); [exact H0|lia|lia|].
    destruct (icstep_inv k s1 e s2 B L _ I Hk H) as (B' & L' & H' & HB' & HL' & _); [lia|lia|exact St|].
    exists B', L', (I ++ ev_idx s1 e). rewrite app_assoc. split; [exact H'|]. split; [lia|]. split; [lia|]. etransitivity; [exact HI|]. apply prefix_app_r. reflexivity.
Qed.

(** ** keys without a race *)
Definition pos_of (n0 : nat) (t1 : list ev) : nat := n0 + length (pairs t1).

Lemma pc_logged k s0 tr s t key p B0 L0 W0 I0 : cfg_ok k -> cinv s0 B0 L0 W0 I0 -> (forall t, ic_pc s0 !! t = None) -> icrun c k s0 tr s ->
  (N.of_nat (length B0 + tr_bytes tr) < 2 ^ 64)%N -> (N.of_nat (16 * (length L0 + length (pairs tr))) < 2 ^ 64)%N ->
  ic_pc s !! t = Some (PLogged key p) ->
  exists t1 v t2, tr = t1 ++ ELog t key v :: t2 /\ EKey t ∉ t2 /\ p = pos_of (length W0) t1.
Proof.
  intros Hk H0 Hpc Hr. revert t key p. induction Hr as [s0|s0 tr s1 e s2 Hr IH St]; intros t key p F1 F2 Hp.
  - rewrite Hpc in Hp. discriminate.
  - unfold tr_bytes in *. rewrite pairs_snoc, sum_list_with_app, ?app_length in *. simpl sum_list_with in *.
    destruct (icrun_inv k s0 B0 L0 W0 I0 Hk H0 tr s1 Hr) as (B & L & I & H & HB & HL & HI); [unfold tr_bytes; lia|lia|].
    destruct (icstep_inv k s1 e s2 B L _ I Hk H) as (B' & L' & H' & HB' & HL' & Hlog); [unfold tr_bytes in *; lia|lia|exact St|].
    specialize (IH H0 Hpc). assert (Hold : ic_pc s1 !! t = Some (PLogged key p) -> e <> EKey t ->
      exists t1 v t2, tr ++ [e] = t1 ++ ELog t key v :: t2 /\ EKey t ∉ t2 /\ p = pos_of (length W0) t1).
    { intros Hp1 He. destruct (IH t key p) as (t1 & v & t2 & -> & Hn & Hpp); [lia|lia|exact Hp1|].
      exists t1, v, (t2 ++ [e]). rewrite <- app_assoc. split; [reflexivity|]. split; [|exact Hpp].
      intro Hi. apply elem_of_app in Hi as [Hi|Hi]; [tauto|]. apply elem_of_list_singleton in Hi. congruence. }
    inversion St; subst; cbn [ic_pc] in *.
    + rewrite (Hlog t0 key0 v eq_refl) in Hp. destruct (decide (t = t0)) as [->|Ht].
      * rewrite lookup_insert in Hp. injection Hp as <- <-. exists tr, v, []. split; [reflexivity|]. split; [intro G; inversion G|].
        unfold pos_of. rewrite app_length. reflexivity.
      * rewrite lookup_insert_ne in Hp by congruence. apply Hold; [exact Hp|discriminate].
    + apply lookup_delete_Some in Hp as [Ht Hp]. apply Hold; [exact Hp|congruence].
    + apply Hold; [exact Hp|discriminate].
    + destruct (decide (t = t0)) as [->|Ht]; [rewrite lookup_insert in Hp; discriminate|]. rewrite lookup_insert_ne in Hp by congruence. apply Hold; [exact Hp|discriminate].
    + apply lookup_delete_Some in Hp as [Ht Hp]. apply Hold; [exact Hp|discriminate].
Qed.

Lemma no_race_prefix (a b : list ev) : no_key_race (a ++ b) -> no_key_race a.
Proof.
  intros H t1 t key v t2 t' v' t3 ->. eapply (H t1 t key v t2 t' v' (t3 ++ b)). rewrite <- !app_assoc. simpl. rewrite <- app_assoc. reflexivity.
Qed.

(** two splits of one list *)
Lemma split_cases {A} (a b : A) : forall u1 u2 t1 t2, u1 ++ a :: u2 = t1 ++ b :: t2 ->
  (u1 = t1 /\ a = b /\ u2 = t2) \/ (exists w, t1 = u1 ++ a :: w /\ u2 = w ++ b :: t2) \/ (exists w, u1 = t1 ++ b :: w /\ t2 = w ++ a :: u2).
Proof.
  induction u1 as [|x u1 IH]; intros u2 t1 t2 E; destruct t1 as [|y t1]; simpl in E; injection E as E1 E2.
  - left. auto.
  - right; left. exists t1. subst. auto.
  - right; right. exists u1. subst. auto.
  - subst y. destruct (IH _ _ _ E2) as [(-> & -> & ->)|[(w & -> & ->)|(w & -> & ->)]]; [left; auto|right; left; exists w; auto|right; right; exists w; auto].
Qed.

Lemma latest_indexed k s0 B0 L0 W0 I0 : cfg_ok k -> cinv s0 B0 L0 W0 I0 -> (forall t, ic_pc s0 !! t = None) -> forall tr s, icrun c k s0 tr s ->
  (N.of_nat (length B0 + tr_bytes tr) < 2 ^ 64)%N -> (N.of_nat (16 * (length L0 + length (pairs tr))) < 2 ^ 64)%N -> no_key_race tr ->
  exists B L I, cinv s B L (W0 ++ pairs tr) I /\ length B = length B0 + tr_bytes tr /\
    forall t1 t key v t2, tr = t1 ++ ELog t key v :: t2 -> (forall t' v', ELog t' key v' ∉ t2) ->
      (EKey t ∈ t2 /\ points I key (pos_of (length W0) t1)) \/
      (EKey t ∉ t2 /\ ic_pc s !! t = Some (PLogged key (pos_of (length W0) t1))).
Proof.
  intros Hk H0 Hpc tr s Hr. induction Hr as [s0|s0 tr s1 e s2 Hr IH St]; intros F1 F2 Hrace.
  - exists B0, L0, I0. split; [unfold pairs; simpl; rewrite app_nil_r; exact H0|]. split; [unfold tr_bytes; simpl; lia|]. intros t1 t key v t2 E. destruct t1; discriminate.
  - unfold tr_bytes in *. rewrite pairs_snoc, sum_list_with_app, ?app_length in *. simpl sum_list_with in *.
    destruct IH as (B1 & L1 & I & H & HB1 & Hlast); [exact H0|exact Hpc|lia|lia|eapply no_race_prefix; eauto|].
    assert (HL1 : length L1 = length L0 + length (pairs tr)).
    { rewrite (ci_len _ _ _ _ _ H), app_length, <- (ci_len _ _ _ _ _ H0). reflexivity. }
    destruct (icstep_inv k s1 e s2 B1 L1 _ I Hk H) as (B' & L' & H' & HB' & HL' & Hlog); [lia|lia|exact St|].
    exists B', L', (I ++ ev_idx s1 e). rewrite app_assoc. split; [exact H'|]. split; [lia|].
    intros t1 t key v t2 E Hn. destruct t2 as [|x t2 _] using rev_ind.
    + apply app_inj_tail in E as [-> ->]. right. split; [intro G; inversion G|]. rewrite (Hlog t key v eq_refl), lookup_insert.
      unfold pos_of. rewrite app_length. reflexivity.
    + rewrite app_comm_cons, app_assoc in E. apply app_inj_tail in E as [-> ->].
      assert (Hn2 : forall t' v', ELog t' key v' ∉ t2) by (intros t' v' Hi; apply (Hn t' v'), elem_of_app; auto).
      assert (Hx : forall t' v', ELog t' key v' <> x) by (intros t' v' <-; apply (Hn t' v'), elem_of_app; right; left).
      destruct (Hlast t1 t key v t2 eq_refl Hn2) as [[Hd Hp]|[Hd Hp]].
      * left. split; [apply elem_of_app; auto|]. unfold ev_idx. destruct x as [| t''| |]; rewrite ?app_nil_r; try exact Hp.
        destruct (ic_pc s1 !! t'') as [[k'' p''|]|] eqn:Ep; rewrite ?app_nil_r; try exact Hp.
        destruct (pc_logged k s0 _ s1 t'' k'' p'' B0 L0 W0 I0 Hk H0 Hpc Hr) as (u1 & v'' & u2 & Eu & Hu & ->); [unfold tr_bytes; lia|lia|exact Ep|].
        destruct (decide (enc_key c k'' = enc_key c key)) as [He|He]; [|apply points_snoc_other; [congruence|exact Hp]].
        apply Hc in He as ->. exfalso. symmetry in Eu. destruct (split_cases _ _ _ _ _ _ Eu) as [(-> & [= -> ->] & ->)|[(w & -> & ->)|(w & -> & ->)]].
        -- tauto.
        -- apply Hu, elem_of_app. left. eapply (Hrace u1 t'' key v'' w t v). rewrite <- !app_assoc. simpl. rewrite <- ?app_assoc. reflexivity.
        -- eapply Hn2. apply elem_of_app. right. left.
      * assert (Hdec : EKey t = x \/ EKey t <> x) by (destruct x as [|t''| |]; [right; discriminate|destruct (decide (t = t'')); [left; congruence|right; congruence]|right; discriminate..]).
        destruct Hdec as [<-|Hne].
        -- left. split; [apply elem_of_app; right; left|]. unfold ev_idx. rewrite Hp. apply points_snoc.
        -- right. split; [intro G; apply elem_of_app in G as [G|G]; [tauto|apply elem_of_list_singleton in G; congruence]|].
           inversion St; subst; cbn [ic_pc] in *.
           ++ rewrite lookup_insert_ne; [exact Hp|]. intros ->. congruence.
           ++ rewrite lookup_delete_ne; [exact Hp|]. congruence.
           ++ exact Hp.
           ++ rewrite lookup_insert_ne; [exact Hp|]. intros ->. congruence.
           ++ rewrite lookup_delete_ne; [exact Hp|]. intros ->. congruence.
Qed.

Lemma lookup_pairs W0 t1 t key v t2 : (W0 ++ pairs (t1 ++ ELog t key v :: t2)) !! pos_of (length W0) t1 = Some (key, v).
Proof.
  unfold pos_of. rewrite lookup_app_r by lia. replace (length W0 + length (pairs t1) - length W0) with (length (pairs t1)) by lia.
  rewrite pairs_app. change (pairs (ELog t key v :: t2)) with ((key, v) :: pairs t2). rewrite list_lookup_middle; reflexivity.
Qed.

(** a found position stays valid and fixed until it is read *)
Lemma found_stays k s tr s' t key p : icrun c k s tr s' -> ic_pc s !! t = Some (PFound key p) -> (forall key' r, ERead t key' r ∉ tr) ->
  ic_pc s' !! t = Some (PFound key p).
Proof.
  intros Hr Hp. induction Hr as [s|s tr s1 e s2 Hr IH St]; intro Hn; [exact Hp|].
  assert (Hp1 : ic_pc s1 !! t = Some (PFound key p)) by (apply IH; [exact Hp|]; intros k' r Hi; apply (Hn k' r), elem_of_app; auto).
  inversion St; subst; cbn [ic_pc] in *.
  - rewrite lookup_insert_ne; [exact Hp1|]. intros ->. congruence.
  - rewrite lookup_delete_ne; [exact Hp1|]. intros ->. congruence.
  - exact Hp1.
  - rewrite lookup_insert_ne; [exact Hp1|]. intros ->. congruence.
  - rewrite lookup_delete_ne; [exact Hp1|]. intros ->. eapply Hn. apply elem_of_app. right. left.
Qed.

Lemma icrun_app k s t1 s1 t2 s2 : icrun c k s t1 s1 -> icrun c k s1 t2 s2 -> icrun c k s (t1 ++ t2) s2.
Proof.
  intros H1 H2. induction H2 as [s1|s1 t2 s2 e s3 Hr IH St]; [rewrite app_nil_r; exact H1|]. rewrite app_assoc. econstructor; eauto.
Qed.
End Conc.
