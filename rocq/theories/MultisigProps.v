(** C52: a multisig plan is spendable by exactly the groups of key owners that reach its quorum. *)
From Coq Require Import ZArith NArith Ascii String Lia.
From stdpp Require Import prelude numbers strings list.
From Verif Require Import ValueModel UtilModel UtilProofs EstimModel JsonModel JsonSpec JsonProofs MultisigModel CborSpec CborProofs.
Open Scope N_scope.

Definition signers (l : list string) (k : string) : bool := bool_decide (k ∈ l).

Lemma satisfied_keys signed keys : length (List.filter id (map (satisfied signed) (map Pubkey keys))) = length (List.filter signed keys).
Proof. induction keys as [|k keys IH]; [reflexivity|]. cbn [map List.filter satisfied id]. destruct (signed k); cbn; rewrite IH; reflexivity. Qed.
Lemma satisfied_plan signed p : forallb (satisfied signed) (to_script p) = (p_quorum p <=? N.of_nat (length (List.filter signed (p_keys p)))).
Proof. unfold to_script. cbn [forallb satisfied]. rewrite andb_true_r, satisfied_keys. reflexivity. Qed.

(** the plan's money can be moved exactly if the entries of the key list whose owners signed are at least as many as the quorum *)
Theorem C52_threshold signed p :
  forallb (satisfied signed) (to_script p) = true <-> p_quorum p <= N.of_nat (length (List.filter signed (p_keys p))).
Proof. rewrite satisfied_plan. apply N.leb_le. Qed.

(** with different keys: exactly if as many different owners as the quorum signed *)
Theorem C52_different_keys l p : NoDup (p_keys p) ->
  forallb (satisfied (signers l)) (to_script p) = true <->
  exists group, NoDup group /\ N.of_nat (length group) = p_quorum p /\ (forall k, k ∈ group -> k ∈ p_keys p /\ k ∈ l).
Proof.
  intro ND. rewrite C52_threshold. split.
  - intro H. exists (take (N.to_nat (p_quorum p)) (List.filter (signers l) (p_keys p))).
    assert (NoDup (List.filter (signers l) (p_keys p))) as N by (apply NoDup_ListNoDup, List.NoDup_filter, NoDup_ListNoDup, ND).
    split; [|split].
    + rewrite <- (take_drop (N.to_nat (p_quorum p)) (List.filter _ _)) in N. apply NoDup_app in N as [N _]. exact N.
    + rewrite take_length. lia.
    + intros k Hk. assert (k ∈ List.filter (signers l) (p_keys p)) as K.
      { rewrite <- (take_drop (N.to_nat (p_quorum p)) (List.filter _ _)). apply elem_of_app. left. exact Hk. }
      apply elem_of_list_In, filter_In in K as [A B]. split; [apply elem_of_list_In, A|]. apply bool_decide_eq_true in B. exact B.
  - intros (g & NG & L & H). rewrite <- L.
    assert (length g <= length (List.filter (signers l) (p_keys p)))%nat; [|lia].
    apply submseteq_length, NoDup_submseteq; [exact NG|]. intros k Hk. destruct (H k Hk) as [A B].
    apply elem_of_list_In, filter_In. split; [apply elem_of_list_In, A|]. apply bool_decide_eq_true. exact B.
Qed.

(** a signature more never hurts *)
Theorem C52_monotone l l' p : (forall k, k ∈ l -> k ∈ l') ->
  forallb (satisfied (signers l)) (to_script p) = true -> forallb (satisfied (signers l')) (to_script p) = true.
Proof.
  intro S. rewrite !C52_threshold. intro H. etransitivity; [exact H|].
  assert (length (List.filter (signers l) (p_keys p)) <= length (List.filter (signers l') (p_keys p)))%nat; [|lia].
  clear H. induction (p_keys p) as [|k ks IH]; [reflexivity|]. cbn [List.filter].
  assert (signers l k = true -> signers l' k = true) as K by (unfold signers; rewrite !bool_decide_eq_true; apply S).
  destruct (signers l k), (signers l' k); cbn [length]; try lia.
Qed.

(** the order of the keys does not change who can spend ... *)
Theorem C52_key_order p p' signed : p_quorum p = p_quorum p' -> p_keys p ≡ₚ p_keys p' ->
  forallb (satisfied signed) (to_script p) = forallb (satisfied signed) (to_script p').
Proof.
  intros Q P. rewrite !satisfied_plan, Q. do 2 f_equal.
  induction P as [|x l l' P IH|x y l|l l' l'' P IH P' IH']; cbn; [reflexivity|destruct (signed x); cbn; lia|destruct (signed x), (signed y); reflexivity|congruence].
Qed.
(** ... but it changes the script: plans have the same script bytes only if they are the same, so with hashes that do not collide
    they have different addresses *)
Theorem C52_script_determines_plan p p' : wf_plan p -> wf_plan p' -> N.of_nat (length (p_keys p)) < 2 ^ 64 -> N.of_nat (length (p_keys p')) < 2 ^ 64 ->
  map script_bytes (to_script p) = map script_bytes (to_script p') -> p = p'.
Proof. intros W W' L L' E. apply plan_script_inj; try assumption. apply cons_inv in E as [E _]. exact E. Qed.
Theorem C52_address_determines_plan {hash} (blake : bytes -> hash) p p' n n' : wf_plan p -> wf_plan p' ->
  N.of_nat (length (p_keys p)) < 2 ^ 64 -> N.of_nat (length (p_keys p')) < 2 ^ 64 ->
  (* the two scripts are not a collision of the hash *)
  (forall s s', s ∈ to_script p -> s' ∈ to_script p' -> blake (script_bytes s) = blake (script_bytes s') -> script_bytes s = script_bytes s') ->
  plan_address (fun s => blake (script_bytes s)) p n = plan_address (fun s => blake (script_bytes s)) p' n' -> p = p' /\ n = n'.
Proof.
  intros W W' L L' I E. unfold plan_address, plan_hash, to_script in E. cbn in E. injection E as -> E. split; [|reflexivity].
  apply plan_script_inj; try assumption. apply I; [left|left|exact E].
Qed.
Theorem C52_address_always {hash} (h : script -> hash) p n : is_Some (plan_address h p n).
Proof. eexists. reflexivity. Qed.
Theorem C52_key_order_address_refuted : exists p p', wf_plan p /\ wf_plan p' /\ p_quorum p = p_quorum p' /\ p_keys p ≡ₚ p_keys p' /\
  map script_bytes (to_script p) <> map script_bytes (to_script p').
Proof.
  set (a := "aaaaaaaaaaaaaaaaaaaaaaaaaaaa"%string). set (b := "bbbbbbbbbbbbbbbbbbbbbbbbbbbb"%string).
  exists (Plan 1 [a; b]), (Plan 1 [b; a]).
  assert (forall l, l = [a; b] \/ l = [b; a] -> wf_plan (Plan 1 l)) as W.
  { intros l [-> | ->]; (split; [cbn; lia|repeat constructor]). }
  split; [auto|]. split; [auto|]. split; [reflexivity|]. split; [apply Permutation_swap|].
  intro E. apply C52_script_determines_plan in E; [discriminate|auto|auto|cbn; lia|cbn; lia].
Qed.

(** ** What is not checked *)
(** a key listed twice counts twice: one owner alone reaches a quorum of two *)
Theorem C52_repeated_key_refuted : exists p k, wf_plan p /\ p_quorum p = 2 /\ forallb (satisfied (signers [k])) (to_script p) = true.
Proof. exists (Plan 2 ["aaaaaaaaaaaaaaaaaaaaaaaaaaaa"; "aaaaaaaaaaaaaaaaaaaaaaaaaaaa"]%string), "aaaaaaaaaaaaaaaaaaaaaaaaaaaa"%string. repeat split; repeat constructor. Qed.
(** with a quorum of zero anybody can spend; with a quorum above the number of keys nobody ever can; both are read without error *)
Theorem C52_no_quorum p signed : p_quorum p = 0 -> forallb (satisfied signed) (to_script p) = true.
Proof. intro Q. apply C52_threshold. rewrite Q. lia. Qed.
Theorem C52_unreachable_quorum p signed : N.of_nat (length (p_keys p)) < p_quorum p -> forallb (satisfied signed) (to_script p) = false.
Proof.
  intro Q. apply not_true_is_false. rewrite C52_threshold. intro H.
  assert (length (List.filter signed (p_keys p)) <= length (p_keys p))%nat; [|lia]. clear. induction (p_keys p) as [|k l IH]; cbn; [lia|destruct (signed k); cbn; lia].
Qed.

(** ** Reading a plan *)
Definition plan_document (quorum : Z) (keys : list string) : json := JObj [("quorum", JInt quorum); ("keys", JArr (map JStr keys))]%string.
Lemma lower_decode s : hex_decode (lower s) = hex_decode s.
Proof.
  destruct (hex_decode s) as [b|] eqn:E.
  - apply decode_spec in E as (E & _ & _). rewrite <- E. apply decode_encode.
  - destruct (hex_decode (lower s)) as [b|] eqn:F; [|reflexivity]. exfalso.
    assert (forall c, is_Some (hexval (lower_char c)) -> is_Some (hexval c)) as L.
    { intro c. intros [x X]. revert X. destruct c as [[] [] [] [] [] [] [] []]; vm_compute; intro X; first [discriminate|eexists; reflexivity]. }
    revert s b E F. fix IH 1. intros [|x [|y s]] b E F.
    + discriminate.
    + discriminate.
    + cbn [lower] in F. cbn [hex_decode] in E, F.
      destruct (hexval (lower_char x)) as [u|] eqn:X; [|discriminate]. destruct (hexval (lower_char y)) as [v|] eqn:Y; [|discriminate].
      destruct (hex_decode (lower s)) as [r|] eqn:R; [|discriminate].
      destruct (L x) as [u' X']; [eauto|]. destruct (L y) as [v' Y']; [eauto|]. rewrite X', Y' in E.
      destruct (hex_decode s) as [r'|] eqn:R'; [discriminate|]. exact (IH s r R' R).
Qed.

(** a plan is read from exactly the quorums below 2^32 and lists of keys of 28 bytes in hexadecimal *)
Theorem C52_reads quorum keys p :
  plan_of_json (plan_document quorum keys) = Some p <->
  (0 <= quorum < 2 ^ 32)%Z /\ p_quorum p = Z.to_N quorum /\
  Forall2 (fun text key => String.length key = 28%nat /\ hex_encode key = lower text /\ all_hex text) keys (p_keys p).
Proof.
  assert (forall t k, key_of_json (JStr t) = Some k <-> String.length k = 28%nat /\ hex_encode k = lower t /\ all_hex t) as K.
  { intros t k. unfold key_of_json. cbn [read_string mbind option_bind]. split.
    - destruct (hex_decode t) as [b|] eqn:D; [|discriminate]. cbn [mbind option_bind]. destruct (Nat.eqb_spec (String.length b) 28); [|discriminate].
      intros [= <-]. apply decode_spec in D as (A & B & _). auto.
    - intros (L & E & H). rewrite <- lower_decode, <- E, decode_encode. cbn [mbind option_bind]. rewrite L. reflexivity. }
  assert (forall ks l, mapM key_of_json (map JStr ks) = Some l <-> Forall2 (fun text key => String.length key = 28%nat /\ hex_encode key = lower text /\ all_hex text) ks l) as M.
  { intros ks l. rewrite mapM_Some. change (map JStr ks) with (JStr <$> ks). rewrite Forall2_fmap_l. split; intro F; (eapply Forall2_impl; [exact F|]); intros t k H; apply K, H. }
  unfold plan_of_json, plan_document. change (struct_fields _ false _) with (Some [Some (JInt quorum); Some (JArr (map JStr keys))]). cbn iota.
  cbn [required read_u32 read_list]. destruct ((0 <=? quorum)%Z && (quorum <? 2 ^ 32)%Z) eqn:Q.
  - apply andb_true_iff in Q. rewrite Z.leb_le, Z.ltb_lt in Q. cbn [mbind option_bind]. split.
    + destruct (mapM key_of_json (map JStr keys)) as [l|] eqn:E; [|discriminate]. intros [= <-]. apply M in E. auto.
    + intros (_ & A & F). apply M in F. rewrite F. cbn. destruct p; cbn in *; subst. reflexivity.
  - cbn. split; [discriminate|]. intros (H & _). apply andb_false_iff in Q. rewrite Z.leb_gt, Z.ltb_ge in Q. lia.
Qed.
(** whatever the document, a plan that was read is well formed *)
Theorem C52_read_well_formed j p : plan_of_json j = Some p -> wf_plan p.
Proof.
  unfold plan_of_json. destruct (struct_fields _ false j) as [[|a [|b [|]]]|]; try discriminate.
  destruct a as [a|]; cbn [required]; [|discriminate]. destruct (read_u32 a) as [q|] eqn:Q; [|discriminate]. cbn [mbind option_bind].
  destruct b as [b|]; cbn [required]; [|discriminate]. destruct (read_list key_of_json b) as [l|] eqn:L; [|discriminate]. intros [= <-]. split; cbn.
  - unfold read_u32 in Q. destruct a; try discriminate. destruct (_ && _) eqn:E; [|discriminate]. injection Q as <-.
    apply andb_true_iff in E. rewrite Z.leb_le, Z.ltb_lt in E. lia.
  - destruct b; try discriminate. cbn [read_list] in L. apply mapM_Some in L. clear Q.
    induction L as [|x k xs ks H L IH]; constructor; [|exact IH]. unfold key_of_json in H.
    destruct (read_string x) as [s|]; [|discriminate]. cbn in H. destruct (hex_decode s) as [d|]; [|discriminate]. cbn in H.
    destruct (Nat.eqb_spec (String.length d) 28); [|discriminate]. injection H as <-. assumption.
Qed.
Theorem C52_case_ignored t : key_of_json (JStr (lower t)) = key_of_json (JStr t).
Proof. unfold key_of_json. cbn [read_string mbind option_bind]. rewrite lower_decode. reflexivity. Qed.
(** reading does not check that the quorum can be reached, or that it asks for anything *)
Theorem C52_quorum_checked_refuted : exists keys,
  (exists p, plan_of_json (plan_document 0 keys) = Some p /\ forallb (satisfied (signers [])) (to_script p) = true) /\
  (exists p, plan_of_json (plan_document 2 keys) = Some p /\ forall signed, forallb (satisfied signed) (to_script p) = false).
Proof.
  exists ["00000000000000000000000000000000000000000000000000000000"]%string. split.
  - eexists. split; [vm_compute; reflexivity|]. reflexivity.
  - eexists. split; [vm_compute; reflexivity|]. intro signed. apply C52_unreachable_quorum. cbn. lia.
Qed.
Theorem C52_reads_in_any_order j j' : reordered j j' -> plan_of_json j = plan_of_json j'.
Proof.
  intro R. unfold plan_of_json. pose proof (struct_fields_reordered ["quorum"; "keys"]%string false j j' R) as Q.
  destruct Q as [l l' Q|]; [|reflexivity].
  destruct Q as [|a a' l l' Ha Q]; [reflexivity|]. destruct Q as [|b b' l l' Hb Q]; [reflexivity|]. destruct Q; [|reflexivity].
  rewrite (required_rel read_u32 a a'), (required_rel (read_list key_of_json) b b'); [reflexivity| |exact Hb| |exact Ha].
  - apply respects_list. intros x x' H. destruct H; reflexivity.
  - intros x x' H. destruct H; reflexivity.
Qed.

(** ** A case *)
Definition two_of_three := Plan 2 ["aaaaaaaaaaaaaaaaaaaaaaaaaaaa"; "bbbbbbbbbbbbbbbbbbbbbbbbbbbb"; "cccccccccccccccccccccccccccc"]%string.
Example C52_case : wf_plan two_of_three /\ NoDup (p_keys two_of_three) /\
  forallb (satisfied (signers ["cccccccccccccccccccccccccccc"; "aaaaaaaaaaaaaaaaaaaaaaaaaaaa"]%string)) (to_script two_of_three) = true /\
  forallb (satisfied (signers ["cccccccccccccccccccccccccccc"; "dddddddddddddddddddddddddddd"]%string)) (to_script two_of_three) = false.
Proof.
  split; [split; [cbn; lia|repeat constructor]|]. split; [repeat (constructor; [set_solver|]); constructor|]. split; vm_compute; reflexivity.
Qed.

Definition all_C52 := (@C52_threshold, @C52_different_keys, @C52_monotone, @C52_key_order, @C52_script_determines_plan, @C52_address_determines_plan,
  @C52_address_always, @C52_key_order_address_refuted, @C52_repeated_key_refuted, @C52_no_quorum, @C52_unreachable_quorum, @C52_reads,
  @C52_read_well_formed, @C52_case_ignored, @C52_quorum_checked_refuted, @C52_reads_in_any_order).
Print Assumptions all_C52.
