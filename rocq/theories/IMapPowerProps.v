(** C68: the indexed log map after power failures. *)
From Coq Require Import Lia ZArith.
From stdpp Require Import numbers list gmap.
From Verif Require Import FraosModel FraosSpec FraosPowerModel FraosPowerSpec.
From Verif Require Import ILogMapModel ILogMapSpec IMapPowerModel IMapPowerSpec IMapPowerProofs.

Section C68.
Context {K V : Type} (c : codec K V).
Notation W := (written K V).

(** *** the map opens again after every failure, and all its answers are those of a list of entries that failures
    change only in the ways of IMapPowerSpec.v *)
Theorem C68_history k dk h : codec_ok c -> entry_aligned k -> sector_aligned dk -> possible c k dk h -> Forall (nothing_found c) h ->
  exists s E, mopen c k dk h = IOk s /\ entries_after [] h E /\ shows c (m_map s) E.
Proof. intros Hc Hk Hdk Hp Hn. apply mopen_ok; assumption. Qed.

Lemma last_known (E : list W) key : codec_ok c ->
  (forall v, Written key v true ∉ E) \/ exists E1 v E2, E = E1 ++ Written key v true :: E2 /\ forall v', Written key v' true ∉ E2.
Proof.
  intros (Hk & _). induction E as [|[k v b] E IH]; [left; intros v H; inversion H|].
  destruct IH as [Hn|(E1 & v' & E2 & -> & Hn)]; [|right; exists (Written k v b :: E1), v', E2; split; [reflexivity|exact Hn]].
  destruct (decide (enc_key c k = enc_key c key)) as [He|He].
  - apply Hk in He as ->. destruct b; [right; exists [], v, E; split; [reflexivity|exact Hn]|].
    left. intros v' H. apply elem_of_cons in H as [H|H]; [discriminate|exact (Hn _ H)].
  - left. intros v' H. apply elem_of_cons in H as [H|H]; [injection H as -> _ _; congruence|exact (Hn _ H)].
Qed.

(** *** no key is ever answered with a value that was not appended for it *)
Theorem C68_never_wrong k dk h : codec_ok c -> entry_aligned k -> sector_aligned dk -> possible c k dk h -> Forall (nothing_found c) h ->
  exists s, mopen c k dk h = IOk s /\
    forall key, ilm_get c (m_map s) key = IOk None \/ exists v, ilm_get c (m_map s) key = IOk (Some v) /\ (key, v) ∈ completed h.
Proof.
  intros Hc Hk Hdk Hp Hn. destruct (C68_history k dk h Hc Hk Hdk Hp Hn) as (s & E & Eo & St & S1 & S2 & _). exists s. split; [exact Eo|].
  intro key. destruct (last_known E key Hc) as [G|(E1 & v & E2 & He & G)].
  - left. apply (S2 key G).
  - right. exists v. destruct (S1 E1 key v E2 He G) as [-> _]. split; [reflexivity|].
    destruct (entries_known _ _ _ St key v) as [H|H]; [|inversion H|exact H]. rewrite He. apply elem_of_app. right. left.
Qed.

(** *** the value of every append that returned is still in the log, in order, with at most the values of appends that
    were interrupted between them *)
Theorem C68_nothing_lost k dk h : codec_ok c -> entry_aligned k -> sector_aligned dk -> possible c k dk h -> Forall (nothing_found c) h ->
  exists s l, mopen c k dk h = IOk s /\ completed h `sublist_of` l /\ l `sublist_of` begun h /\
    (forall n, ilm_iter c n (m_map s) = (map IOk (take n (map snd l)), length l <? n)) /\ ilm_last c (m_map s) = IOk (last (map snd l)).
Proof.
  intros Hc Hk Hdk Hp Hn. destruct (C68_history k dk h Hc Hk Hdk Hp Hn) as (s & E & Eo & St & _ & _ & _ & Hi & Hl & _).
  destruct (entries_pairs _ _ _ St) as (l & Hm & H1 & H2). cbn [map app] in Hm.
  assert (Hv : map w_val E = map snd l) by (rewrite <- Hm, map_map; reflexivity).
  exists s, l. split; [exact Eo|]. split; [exact H1|]. split; [exact H2|]. rewrite <- Hv. split.
  - intro n. rewrite (Hi n). do 2 f_equal. rewrite <- Hm, map_length. reflexivity.
  - rewrite Hl. f_equal. symmetry. apply (fmap_last w_val).
Qed.

(** *** as long as no failure costs sled an insert, every key keeps its last value *)
Theorem C68_keys_kept k dk h : codec_ok c -> entry_aligned k -> sector_aligned dk -> possible c k dk h -> Forall (nothing_found c) h ->
  Forall keys_kept h ->
  exists s, mopen c k dk h = IOk s /\
    (forall l1 key v l2, completed h = l1 ++ (key, v) :: l2 -> (forall v', (key, v') ∉ l2) -> ilm_get c (m_map s) key = IOk (Some v)) /\
    (forall key, (forall v, (key, v) ∉ completed h) -> ilm_get c (m_map s) key = IOk None).
Proof.
  intros Hc Hk Hdk Hp Hn Hkk. destruct (C68_history k dk h Hc Hk Hdk Hp Hn) as (s & E & Eo & St & S1 & S2 & _). exists s. split; [exact Eo|].
  assert (Hkn := entries_kept _ _ _ St Hkk). change (known []) with (@nil (K * V)) in Hkn. cbn [app] in Hkn. split.
  - intros l1 key v l2 Hl Hno. rewrite Hl in Hkn. destruct (known_split _ _ _ _ _ Hkn) as (E1 & E2 & He & H2).
    apply (S1 E1 key v E2 He). intros v' Hi. apply (Hno v'). rewrite <- H2. apply known_in. exact Hi.
  - intros key Hno. apply S2. intros v Hi. apply (Hno v). rewrite <- Hkn. apply known_in. exact Hi.
Qed.
End C68.
