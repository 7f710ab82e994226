(** C47 and C48: asset fingerprints, and conversions between ledger outputs and the library's own. *)
From Coq Require Import ZArith QArith Qround Lia Ascii.
From stdpp Require Import gmap strings list.
From Verif Require Import ValueModel ValueSpec ValueProofs StoreModel EstimModel EstimProps UtilModel UtilProofs.
Open Scope N_scope.

Local Arguments String.append !_ _ / : simpl nomatch.
Local Arguments String.length !_ / : simpl nomatch.

(** ** C47 *)
(** twenty zero bytes; twenty-four zero digits *)
Definition zero_hash : string := string_of_list_ascii (repeat zero 20).
Definition zeros24 : string := "000000000000000000000000".

Section C47.
  Context (blake : string -> string) (Hblake : forall s, String.length (blake s) = 20%nat).
  Notation fp := (fingerprint blake).

  Lemma fp_some p n t : fp p n = Some t <-> exists bp bn, hex_decode p = Some bp /\ String.length p = 56%nat /\
    hex_decode n = Some bn /\ t = (hex_encode (blake (bp ++ bn)) ++ zeros24)%string.
  Proof using Hblake.
    unfold fingerprint, fingerprint_hash, decode_to_slice.
    assert (P : forall x, pad64 (hex_encode (blake x)) = (hex_encode (blake x) ++ zeros24)%string).
    { intro x. unfold pad64. rewrite encode_length, Hblake. reflexivity. }
    split.
    - destruct (Nat.eqb_spec (String.length p) (2 * 28)) as [Lp|]; [|discriminate].
      destruct (hex_decode p) as [bp|] eqn:Dp; [|discriminate].
      destruct (Nat.eqb_spec (String.length n) (2 * (String.length n / 2))) as [Ln|]; [|discriminate].
      destruct (hex_decode n) as [bn|] eqn:Dn; [|discriminate]. intro H. injection H as <-. exists bp, bn. rewrite P. auto.
    - intros (bp & bn & Dp & Lp & Dn & ->). rewrite Lp. change (56 =? 2 * 28)%nat with true. cbn iota. rewrite Dp.
      destruct (decode_spec _ _ Dn) as (_ & _ & Ln).
      replace (String.length n =? 2 * (String.length n / 2))%nat with true; [rewrite Dn, P; reflexivity|].
      symmetry. apply Nat.eqb_eq. rewrite Ln. rewrite (Nat.mul_comm 2 (String.length bn)), Nat.div_mul by lia. lia.
  Qed.

  (** A policy and a name have a fingerprint exactly when the policy is 28 bytes and the name whole bytes in hexadecimal. *)
  Theorem C47_accepts p n : is_Some (fp p n) <->
    all_hex p /\ String.length p = 56%nat /\ all_hex n /\ Nat.Even (String.length n).
  Proof using Hblake.
    split.
    - intros [t H]. apply fp_some in H as (bp & bn & Dp & Lp & Dn & _).
      destruct (decode_spec _ _ Dp) as (_ & A & _). destruct (decode_spec _ _ Dn) as (_ & B & C).
      split; [exact A|]. split; [exact Lp|]. split; [exact B|]. exists (String.length bn). exact C.
    - intros (A & Lp & B & C). destruct (decode_some p A) as [bp Dp]; [exists 28%nat; exact Lp|]. destruct (decode_some n B C) as [bn Dn].
      eexists. apply fp_some. exists bp, bn. auto.
  Qed.

  (** It is the 40 digits of the hash of the policy's and the name's bytes, and 24 zeros. *)
  Theorem C47_shape p n t : fp p n = Some t -> exists bp bn,
    hex_encode bp = lower p /\ hex_encode bn = lower n /\
    t = (hex_encode (blake (bp ++ bn)) ++ zeros24)%string /\
    String.length t = 64%nat /\ String.length (hex_encode (blake (bp ++ bn))) = 40%nat /\ all_hex t.
  Proof using Hblake.
    intro H. apply fp_some in H as (bp & bn & Dp & Lp & Dn & ->). exists bp, bn.
    destruct (decode_spec _ _ Dp) as (A & _). destruct (decode_spec _ _ Dn) as (B & _).
    assert (L : String.length (hex_encode (blake (bp ++ bn))) = 40%nat) by (rewrite encode_length, Hblake; reflexivity).
    split; [exact A|]. split; [exact B|]. split; [reflexivity|]. split; [rewrite len_app, L; reflexivity|]. split; [exact L|].
    destruct (decode_spec _ _ (decode_encode (blake (bp ++ bn)))) as (_ & H & _). revert H. clear. unfold all_hex.
    induction (hex_encode (blake (bp ++ bn))) as [|c s IH]; intro H.
    - cbn [String.append]. apply (bool_decide_unpack _). vm_compute. exact I.
    - cbn [String.append list_ascii_of_string] in *. apply Forall_cons in H as [H1 H2]. constructor; [exact H1|apply IH, H2].
  Qed.

  (** Two fingerprints are equal exactly when the hashes are; the case of the digits does not matter. *)
  Theorem C47_identifies p n t p' n' t' : fp p n = Some t -> fp p' n' = Some t' -> exists b b',
    hex_encode b = lower (p ++ n) /\ hex_encode b' = lower (p' ++ n') /\ (t = t' <-> blake b = blake b') /\
    (b = b' <-> lower p = lower p' /\ lower n = lower n').
  Proof using Hblake.
    intros H H'. apply fp_some in H as (bp & bn & Dp & Lp & Dn & ->). apply fp_some in H' as (bp' & bn' & Dp' & Lp' & Dn' & ->).
    destruct (decode_spec _ _ Dp) as (A & _ & La). destruct (decode_spec _ _ Dn) as (B & _).
    destruct (decode_spec _ _ Dp') as (A' & _ & La'). destruct (decode_spec _ _ Dn') as (B' & _).
    assert (EA : forall a b, hex_encode (a ++ b)%string = (hex_encode a ++ hex_encode b)%string).
    { intros a b. induction a as [|c a IH]; [reflexivity|]. cbn [String.append hex_encode]. rewrite IH. reflexivity. }
    assert (LA : forall a b, lower (a ++ b)%string = (lower a ++ lower b)%string).
    { intros a b. induction a as [|c a IH]; [reflexivity|]. cbn [String.append lower]. rewrite IH. reflexivity. }
    exists (bp ++ bn)%string, (bp' ++ bn')%string. rewrite !EA, !LA, A, B, A', B'. split; [reflexivity|]. split; [reflexivity|]. split.
    - split; [|intros ->; reflexivity]. intro E. apply app_same_length in E as [E _]; [apply encode_inj, E|].
      rewrite !encode_length, !Hblake. reflexivity.
    - split.
      + intro E. apply app_same_length in E as [-> ->]; [|lia]. rewrite <- A, <- A', <- B, <- B'. auto.
      + intros [E1 E2]. rewrite <- A, <- A' in E1. rewrite <- B, <- B' in E2. apply encode_inj in E1, E2. congruence.
  Qed.

  (** It is the identifier of the main token only if the hash is zero. *)
  Theorem C47_not_main p n t : fp p n = Some t -> exists b, hex_encode b = lower (p ++ n) /\ (t = MAIN <-> blake b = zero_hash).
  Proof using Hblake.
    intro H. apply fp_some in H as (bp & bn & Dp & Lp & Dn & ->). exists (bp ++ bn)%string.
    destruct (decode_spec _ _ Dp) as (A & _). destruct (decode_spec _ _ Dn) as (B & _). split.
    - assert (EA : forall a b, hex_encode (a ++ b)%string = (hex_encode a ++ hex_encode b)%string).
      { intros a b. induction a as [|c a IH]; [reflexivity|]. cbn [String.append hex_encode]. rewrite IH. reflexivity. }
      rewrite EA, A, B. clear. induction p as [|c p IH]; [reflexivity|]. cbn [String.append lower]. rewrite IH. reflexivity.
    - change MAIN with (hex_encode zero_hash ++ zeros24)%string. split; [|intros ->; reflexivity].
      intro E. apply app_same_length in E as [E _]; [apply encode_inj, E|]. rewrite !encode_length, Hblake. reflexivity.
  Qed.
End C47.

(** ** C48 *)
(** an asset the ledger can take: hexadecimal identifiers of the right size, and a quantity whose integral part is below 2^64 *)
Definition fits (a : dasset) : Prop :=
  all_hex (da_policy a) /\ String.length (da_policy a) = 56%nat /\
  all_hex (da_name a) /\ Nat.Even (String.length (da_name a)) /\ (String.length (da_name a) <= 64)%nat /\
  (Qfloor (amount (da_qty a)) < 2 ^ 64)%Z.
(** the same (policy, name) bytes *)
Definition same_place (a b : dasset) : Prop := lower (da_policy a) = lower (da_policy b) /\ lower (da_name a) = lower (da_name b).
(** the quantity the ledger gets: the integral part, and nothing if it is negative *)
Definition units_of (v : dec) : Z := Z.max 0 (Qfloor (amount v)).

Lemma floor_neg x : (x < 0)%Q -> (Qfloor x < 0)%Z.
Proof.
  intro H. pose proof (Qfloor_le x) as L. assert (Q : (inject_Z (Qfloor x) < inject_Z 0)%Q) by (apply Qle_lt_trans with x; assumption).
  rewrite <- Zlt_Qlt in Q. exact Q.
Qed.
Lemma floor_nonneg x : (0 <= x)%Q -> (0 <= Qfloor x)%Z.
Proof. intro H. change 0%Z with (Qfloor (inject_Z 0)). apply Qfloor_resp_le. exact H. Qed.
Lemma entry_spec a p n q : asset_entry a = Some (p, n, q) <->
  fits a /\ hex_encode p = lower (da_policy a) /\ hex_encode n = lower (da_name a) /\ Z.of_N q = units_of (da_qty a).
Proof.
  assert (Qs : forall v, quantity_to_bignum v = Some q <-> (Qfloor (amount v) < 2 ^ 64)%Z /\ Z.of_N q = units_of v).
  { intro v. rewrite quantity_spec. unfold units_of. destruct (Qlt_le_dec (amount v) 0) as [Hl|Hl].
    - assert (F := floor_neg _ Hl). split; [intros [[_ ->]|[H _]]; [lia|exfalso; apply (Qlt_not_le _ _ Hl), H]|]. intros [_ H]. left. split; [exact Hl|lia].
    - assert (F := floor_nonneg _ Hl). split; [intros [[H _]|(_ & H1 & H2)]; [exfalso; apply (Qlt_not_le _ _ H), Hl|lia]|].
      intros [H1 H2]. right. split; [exact Hl|lia]. }
  unfold asset_entry, policy_from_bytes, asset_name_new, fits. split.
  - destruct (hex_decode (da_policy a)) as [bp|] eqn:Dp; [|discriminate]. destruct (Nat.eqb_spec (String.length bp) 28) as [Lp|]; [|discriminate].
    destruct (hex_decode (da_name a)) as [bn|] eqn:Dn; [|discriminate]. destruct (Nat.leb_spec (String.length bn) 32) as [Ln|]; [|discriminate].
    destruct (quantity_to_bignum (da_qty a)) as [q'|] eqn:Q; [|discriminate]. intro H. injection H as <- <- <-. apply Qs in Q as [Q1 Q2].
    destruct (decode_spec _ _ Dp) as (A1 & A2 & A3). destruct (decode_spec _ _ Dn) as (B1 & B2 & B3).
    split; [|auto]. split; [exact A2|]. split; [lia|]. split; [exact B2|]. split; [exists (String.length bn); exact B3|]. split; [lia|exact Q1].
  - intros ((A2 & A3 & B2 & B3 & B4 & Q1) & A1 & B1 & Q2).
    destruct (decode_some _ A2) as [bp Dp]; [exists 28%nat; exact A3|]. destruct (decode_some _ B2 B3) as [bn Dn]. rewrite Dp, Dn.
    destruct (decode_spec _ _ Dp) as (A4 & _ & A5). destruct (decode_spec _ _ Dn) as (B5 & _ & B6).
    rewrite <- A4 in A1. apply encode_inj in A1 as ->. rewrite <- B5 in B1. apply encode_inj in B1 as ->.
    replace (String.length bp =? 28)%nat with true by (symmetry; apply Nat.eqb_eq; lia).
    replace (String.length bn <=? 32)%nat with true by (symmetry; apply Nat.leb_le; lia).
    rewrite (proj2 (Qs (da_qty a)) (conj Q1 Q2)). reflexivity.
Qed.
Lemma entry_fits a : is_Some (asset_entry a) <-> fits a.
Proof.
  split; [intros [[[p n] q] H]; apply entry_spec in H; tauto|]. intro F. destruct F as (A2 & A3 & B2 & B3 & B4 & Q1) eqn:EF.
  destruct (decode_some _ A2) as [bp Dp]; [exists 28%nat; exact A3|]. destruct (decode_some _ B2 B3) as [bn Dn].
  exists (bp, bn, Z.to_N (units_of (da_qty a))). apply entry_spec. split; [exact F|].
  split; [exact (proj1 (decode_spec _ _ Dp))|]. split; [exact (proj1 (decode_spec _ _ Dn))|]. apply Z2N.id. unfold units_of. lia.
Qed.

Section C48.
  Context (blake : string -> string) (ho : horder) (lo : lorder).
  Context (Hh : fair_h ho) (Hl : fair_l lo).
  Notation to_ledger := (tokens_to_csl_value ho).
  Notation from_ledger := (csl_value_to_tokens blake lo).

  Lemma in_ho m a : a ∈ ho m <-> exists t, m !! t = Some a.
  Proof using Hh.
    rewrite (Hh m), elem_of_list_fmap. split.
    - intros ([t b] & -> & H). apply elem_of_map_to_list in H. eauto.
    - intros [t H]. exists (t, a). rewrite elem_of_map_to_list. auto.
  Qed.

  (** A value is refused exactly when the coin is negative or does not fit in 64 bits, or an asset does not fit. *)
  Theorem C48_refused coin m : to_ledger coin m = None <->
    (amount coin < 0)%Q \/ (2 ^ 64 <= Qfloor (amount coin))%Z \/ exists t a, m !! t = Some a /\ ~ fits a.
  Proof using Hh.
    unfold tokens_to_csl_value.
    assert (S : set_assets (ho m) ∅ = None <-> exists t a, m !! t = Some a /\ ~ fits a).
    { rewrite set_assets_none. split.
      - intros (a & Ha & X). apply in_ho in Ha as [t Ht]. exists t, a. split; [exact Ht|]. rewrite <- entry_fits, X. intros [? ?]. discriminate.
      - intros (t & a & Ht & Hf). exists a. split; [apply in_ho; eauto|]. destruct (asset_entry a) eqn:X; [|reflexivity].
        exfalso. apply Hf, entry_fits. rewrite X. eauto. }
    destruct (value_to_csl_coin coin) as [c|] eqn:C.
    - apply coin_spec in C as (C1 & C2 & C3). assert (N1 : ~ (amount coin < 0)%Q) by (intro H; apply (Qlt_not_le _ _ H), C1).
      assert (N2 : ~ (2 ^ 64 <= Qfloor (amount coin))%Z) by lia.
      destruct (Nat.eqb_spec (size m) 0) as [E|E].
      + apply map_size_empty_iff in E as ->. split; [discriminate|]. intros [H|[H|(t & a & H & _)]]; [tauto|tauto|]. rewrite lookup_empty in H. discriminate.
      + destruct (set_assets (ho m) ∅); [split; [discriminate|]|tauto]. intros [H|[H|H]]; [tauto|tauto|]. apply S in H. discriminate.
    - split; [intros _|reflexivity]. destruct (Qlt_le_dec (amount coin) 0) as [H|H]; [auto|]. right. left.
      destruct (Z.le_gt_cases (2 ^ 64) (Qfloor (amount coin))) as [G|G]; [exact G|]. exfalso.
      assert (F := floor_nonneg _ H). assert (X : value_to_csl_coin coin = Some (Z.to_N (Qfloor (amount coin)))).
      { apply coin_spec. split; [exact H|]. lia. } congruence.
  Qed.

  (** What is sent: the integral part of the coin, and for every asset whose identifiers no other asset shares its integral
      quantity; nothing else. *)
  Theorem C48_sent coin m v : to_ledger coin m = Some v ->
    (forall t t' a a', m !! t = Some a -> m !! t' = Some a' -> same_place a a' -> t = t') ->
    Z.of_N (lv_coin v) = Qfloor (amount coin) /\
    (m = ∅ -> lv_multi v = None) /\
    (m <> ∅ -> exists l, lv_multi v = Some l /\ no_empty l /\ forall p n q,
       at_place l p n = Some q <-> exists t a, m !! t = Some a /\ hex_encode p = lower (da_policy a) /\ hex_encode n = lower (da_name a) /\
                                              Z.of_N q = units_of (da_qty a)).
  Proof using Hh.
    unfold tokens_to_csl_value. intros H D. destruct (value_to_csl_coin coin) as [c|] eqn:C; [|discriminate]. apply coin_spec in C as (C1 & C2 & C3).
    destruct (Nat.eqb_spec (size m) 0) as [E|E].
    { injection H as <-. apply map_size_empty_iff in E as ->. split; [exact C2|]. split; [reflexivity|congruence]. }
    destruct (set_assets (ho m) ∅) as [l|] eqn:S; [|discriminate]. injection H as <-. cbn [lv_coin lv_multi]. split; [exact C2|].
    split; [intros ->; exfalso; apply E, map_size_empty|]. intros _. exists l. split; [reflexivity|].
    assert (ND : NoDup (map place_of (ho m))).
    { rewrite (Permutation_map place_of (Hh m)), map_map.
      assert (F : forall ta, ta ∈ map_to_list m -> is_Some (asset_entry ta.2)).
      { intros [t a] Ht. cbn. apply entry_fits. destruct (asset_entry a) eqn:X; [apply entry_fits; rewrite X; eauto|]. exfalso.
        assert (N : set_assets (ho m) ∅ = None); [|congruence]. apply set_assets_none. exists a. split; [|exact X].
        apply in_ho. exists t. apply elem_of_map_to_list, Ht. }
      assert (D' : forall ta ta', ta ∈ map_to_list m -> ta' ∈ map_to_list m -> place_of ta.2 = place_of ta'.2 -> ta = ta').
      { intros [t a] [t' a'] Ht Ht' P. destruct (F _ Ht) as [[[p n] q] X]. destruct (F _ Ht') as [[[p' n'] q'] X']. cbn [snd] in *. unfold place_of in P.
        rewrite X, X' in P. cbn in P. injection P as <- <-. apply entry_spec in X as (_ & X1 & X2 & _). apply entry_spec in X' as (_ & X1' & X2' & _).
        apply elem_of_map_to_list in Ht, Ht'. assert (t = t') as -> by (eapply D; [exact Ht|exact Ht'|split; congruence]). congruence. }
      assert (NL := NoDup_map_to_list m). revert D' NL. clear. induction (map_to_list m) as [|ta l IH]; intros D' NL; [constructor|].
      apply NoDup_cons in NL as [N1 N2]. cbn [map]. constructor.
      - intro G. apply elem_of_list_fmap in G as (ta' & G1 & G2). apply N1. rewrite (D' ta ta'); [exact G2|left|right; exact G2|exact G1].
      - apply IH; [|exact N2]. intros x y Hx Hy. apply D'; right; assumption. }
    split; [apply (set_assets_no_empty _ _ _) in S; [exact S|intros p a Q; rewrite lookup_empty in Q; discriminate]|].
    intros p n q. destruct (set_assets_at _ _ _ ND S p n) as [S1 S2]. split.
    - intro Q. destruct (decide (Exists (fun a => place_of a = Some (p, n)) (ho m))) as [Ex|Nx].
      + apply Exists_exists in Ex as (a & Ha & Pa). unfold place_of in Pa. destruct (asset_entry a) as [[[p' n'] q']|] eqn:X; [|discriminate].
        cbn in Pa. injection Pa as -> ->. rewrite (S1 a q' Ha X) in Q. injection Q as ->. apply in_ho in Ha as [t Ht].
        apply entry_spec in X as (_ & X1 & X2 & X3). eauto 10.
      + rewrite S2 in Q; [unfold at_place in Q; rewrite lookup_empty in Q; discriminate|]. intros a q' Ha X. apply Nx, Exists_exists.
        exists a. split; [exact Ha|]. unfold place_of. rewrite X. reflexivity.
    - intros (t & a & Ht & X1 & X2 & X3). assert (Ha : a ∈ ho m) by (apply in_ho; eauto). apply (S1 a q Ha).
      assert (Fa : is_Some (asset_entry a)).
      { destruct (asset_entry a) eqn:X; [eauto|]. exfalso. assert (N : set_assets (ho m) ∅ = None) by (apply set_assets_none; eauto). congruence. }
      apply entry_fits in Fa. apply entry_spec. auto.
  Qed.

  (** what comes back *)
  Definition ledger_ok (v : lvalue) : Prop := lv_coin v < 2 ^ 64 /\
    match lv_multi v with
    | None => True
    | Some m => m <> ∅ /\ no_empty m /\ forall p n q, at_place m p n = Some q ->
                  String.length p = 28%nat /\ (String.length n <= 32)%nat /\ q < 2 ^ 64
    end.
  Definition entry_in (v : lvalue) (p n : string) (q : N) : Prop :=
    match lv_multi v with Some m => at_place m p n = Some q | None => False end.
  (** no two assets of the value have the same fingerprint *)
  Definition no_clash (v : lvalue) : Prop := forall p n q p' n' q', entry_in v p n q -> entry_in v p' n' q' ->
    fingerprint blake (hex_encode p) (hex_encode n) = fingerprint blake (hex_encode p') (hex_encode n') -> p = p' /\ n = n'.

  Lemma fp_of_bytes p n : String.length p = 28%nat -> is_Some (fingerprint blake (hex_encode p) (hex_encode n)).
  Proof.
    intro Hp. unfold fingerprint, fingerprint_hash, decode_to_slice. rewrite !encode_length, Hp, !decode_encode.
    change (2 * 28 =? 2 * 28)%nat with true. rewrite (Nat.mul_comm 2 (String.length n)), Nat.div_mul, Nat.mul_comm, Nat.eqb_refl by lia. eauto.
  Qed.
  Lemma tokens_of_entries_some l : forall m, (forall p n q, (p, n, q) ∈ l -> is_Some (token_of_entry blake (p, n, q))) ->
    exists m', tokens_of_entries blake l m = Some m' /\
      ((forall x y, x ∈ l -> y ∈ l -> option_map da_fp (token_of_entry blake x) = option_map da_fp (token_of_entry blake y) -> x = y) -> NoDup l ->
       (forall x a, x ∈ l -> token_of_entry blake x = Some a -> m !! da_fp a = None) ->
       forall t a, m' !! t = Some a <-> m !! t = Some a \/ exists x, x ∈ l /\ token_of_entry blake x = Some a /\ da_fp a = t).
  Proof.
    induction l as [|x l IH]; intros m Hs; cbn [tokens_of_entries].
    - exists m. split; [reflexivity|]. intros _ _ _ t a. split; [auto|]. intros [H|(x & H & _)]; [exact H|inversion H].
    - destruct x as [[p n] q]. destruct (Hs p n q ltac:(left)) as [a0 E0]. rewrite E0.
      destruct (IH (<[da_fp a0:=a0]> m)) as (m' & M1 & M2); [intros p' n' q' H; apply Hs; right; exact H|].
      exists m'. split; [exact M1|]. intros Inj ND Fr t a. apply NoDup_cons in ND as [N1 N2]. rewrite M2; [| |exact N2|].
      + destruct (decide (da_fp a0 = t)) as [<-|Ht].
        * rewrite lookup_insert. assert (Fm := Fr _ _ ltac:(left) E0). rewrite Fm. split.
          -- intros [H|(x & H1 & H2 & H3)]; [injection H as <-; right; exists (p, n, q); split; [left|auto]|right; exists x; split; [right; exact H1|auto]].
          -- intros [H|(x & H1 & H2 & H3)]; [discriminate|]. left. f_equal.
             assert (X : (p, n, q) = x); [|subst x; congruence]. apply Inj; [left|exact H1|]. rewrite E0, H2. cbn. congruence.
        * rewrite lookup_insert_ne by exact Ht. split.
          -- intros [H|(x & H1 & H2 & H3)]; [auto|right; exists x; split; [right; exact H1|auto]].
          -- intros [H|(x & H1 & H2 & H3)]; [auto|]. apply elem_of_cons in H1 as [->|H1]; [congruence|eauto].
      + intros x y Hx Hy. apply Inj; right; assumption.
      + intros x b Hx Eb. rewrite lookup_insert_ne; [apply (Fr x b); [right; exact Hx|exact Eb]|]. intro Ef. apply N1.
        rewrite (Inj (p, n, q) x); [exact Hx|left|right; exact Hx|]. rewrite E0, Eb. cbn. congruence.
  Qed.

  (** Reading a ledger value: it always succeeds, and gives the coin and, when no two assets share a fingerprint, exactly the
      assets of the value, under their fingerprints. *)
  Theorem C48_read v : ledger_ok v -> exists coin m, from_ledger v = Some (coin, m) /\ (amount coin == inject_Z (Z.of_N (lv_coin v)))%Q /\
    (no_clash v -> forall t a, m !! t = Some a <-> exists p n q, entry_in v p n q /\ fingerprint blake (hex_encode p) (hex_encode n) = Some t /\
       a = DAsset (hex_encode p) (hex_encode n) t (dec_of_Z (Z.of_N q))).
  Proof using Hl.
    intros [V1 V2]. unfold csl_value_to_tokens. set (l := match lv_multi v with Some m => lo m | None => [] end).
    assert (Hin : forall p n q, (p, n, q) ∈ l <-> entry_in v p n q).
    { intros p n q. unfold l, entry_in. destruct (lv_multi v) as [m|]; [apply (proj2 (Hl m))|]. split; [intro H; inversion H|contradiction]. }
    assert (ND : NoDup l) by (unfold l; destruct (lv_multi v) as [m|]; [apply Hl|constructor]).
    assert (Hs : forall p n q, (p, n, q) ∈ l -> is_Some (token_of_entry blake (p, n, q))).
    { intros p n q H. apply Hin in H. unfold entry_in in H. destruct (lv_multi v) as [m|]; [|contradiction]. destruct V2 as (_ & _ & V2).
      destruct (V2 _ _ _ H) as (Lp & _). destruct (fp_of_bytes p n Lp) as [t Ht]. unfold token_of_entry. rewrite Ht. eauto. }
    destruct (tokens_of_entries_some l ∅ Hs) as (m' & M1 & M2). rewrite M1. eexists. exists m'. split; [reflexivity|].
    split; [apply amount_dec0|]. intros Nc t a. rewrite M2; [| |exact ND|intros; apply lookup_empty].
    - rewrite lookup_empty. split.
      + intros [H|([[p n] q] & H1 & H2 & H3)]; [discriminate|]. exists p, n, q. apply Hin in H1. split; [exact H1|].
        unfold token_of_entry in H2. destruct (fingerprint blake _ _) as [f|]; [|discriminate]. injection H2 as <-. cbn in H3. subst f. auto.
      + intros (p & n & q & H1 & H2 & ->). right. exists (p, n, q). split; [apply Hin, H1|]. unfold token_of_entry. rewrite H2. auto.
    - intros [[p n] q] [[p' n'] q'] Hx Hy E. apply Hin in Hx, Hy. unfold token_of_entry in E.
      assert (E' : fingerprint blake (hex_encode p) (hex_encode n) = fingerprint blake (hex_encode p') (hex_encode n')).
      { destruct (fingerprint blake (hex_encode p) (hex_encode n)), (fingerprint blake (hex_encode p') (hex_encode n')); cbn in E; congruence. }
      destruct (Nc _ _ _ _ _ _ Hx Hy E') as [<- <-]. f_equal. unfold entry_in in *. destruct (lv_multi v); [congruence|contradiction].
  Qed.

  (** There and back: a value with integral amounts whose assets are known by their fingerprints comes back the same. *)
  Theorem C48_round_trip coin m c : (amount coin == inject_Z (Z.of_N c))%Q -> c < 2 ^ 64 ->
    (forall t a, m !! t = Some a -> da_fp a = t /\ fits a /\ lower (da_policy a) = da_policy a /\ lower (da_name a) = da_name a /\
       fingerprint blake (da_policy a) (da_name a) = Some t /\ exists q, (amount (da_qty a) == inject_Z (Z.of_N q))%Q) ->
    exists v coin' m', to_ledger coin m = Some v /\ ledger_ok v /\ from_ledger v = Some (coin', m') /\ (amount coin' == amount coin)%Q /\
      forall t, match m !! t, m' !! t with
                | Some a, Some a' => da_fp a' = da_fp a /\ da_policy a' = da_policy a /\ da_name a' = da_name a /\ (amount (da_qty a') == amount (da_qty a))%Q
                | None, None => True
                | _, _ => False
                end.
  Proof using Hh Hl.
    intros Hc Hb Ha.
    destruct (to_ledger coin m) as [v|] eqn:T.
    2:{ exfalso. apply C48_refused in T as [H|[H|(t & a & H & Nf)]].
        - rewrite Hc in H. change 0%Q with (inject_Z 0) in H. rewrite <- Zlt_Qlt in H. lia.
        - rewrite (floor_int _ _ Hc) in H. lia.
        - apply Nf, (Ha _ _ H). }
    destruct (C48_sent _ _ _ T) as (S1 & S2 & S3).
    { intros t t' a a' H H' [P1 P2]. destruct (Ha _ _ H) as (_ & _ & L1 & L2 & F & _). destruct (Ha _ _ H') as (_ & _ & L1' & L2' & F' & _).
      rewrite L1, L1' in P1. rewrite L2, L2' in P2. rewrite P1, P2, F' in F. congruence. }
    rewrite (floor_int _ _ Hc) in S1.
    assert (Hen : forall p n q, entry_in v p n q <-> exists t a, m !! t = Some a /\ hex_encode p = da_policy a /\ hex_encode n = da_name a /\ (amount (da_qty a) == inject_Z (Z.of_N q))%Q).
    { intros p n q. unfold entry_in. destruct (decide (m = ∅)) as [Em|Em].
      - rewrite (S2 Em). split; [contradiction|]. intros (t & a & H & _). rewrite Em, lookup_empty in H. discriminate.
      - destruct (S3 Em) as (l & -> & _ & S4). rewrite S4. split; intros (t & a & H & P1 & P2 & P3); exists t, a; (split; [exact H|]);
          destruct (Ha _ _ H) as (_ & _ & L1 & L2 & F & q' & Hq).
        + split; [congruence|]. split; [congruence|]. rewrite Hq. unfold units_of in P3. rewrite (floor_int _ _ Hq) in P3.
          replace (Z.of_N q) with (Z.of_N q') by lia. reflexivity.
        + split; [congruence|]. split; [congruence|]. unfold units_of. rewrite (floor_int _ _ P3). lia. }
    assert (Ok : ledger_ok v).
    { split; [lia|]. destruct (decide (m = ∅)) as [Em|Em]; [rewrite (S2 Em); exact I|]. destruct (S3 Em) as (l & El & Ne & S4). rewrite El.
      split; [|split; [exact Ne|]].
      - destruct (map_choose m Em) as (t & a & H). destruct (Ha _ _ H) as (_ & Fa & L1 & L2 & _). apply entry_fits in Fa as [[[p n] q] Fa].
        apply entry_spec in Fa as (_ & P1 & P2 & P3). assert (X : at_place l p n = Some q) by (apply S4; exists t, a; auto).
        intros ->. unfold at_place in X. rewrite lookup_empty in X. discriminate.
      - intros p n q X. apply S4 in X as (t & a & H & P1 & P2 & P3). destruct (Ha _ _ H) as (_ & (A2 & A3 & B2 & B3 & B4 & Q1) & L1 & L2 & _).
        apply (f_equal String.length) in P1, P2. rewrite encode_length, L1 in P1. rewrite encode_length, L2 in P2.
        split; [lia|]. split; [lia|]. unfold units_of in P3. lia. }
    assert (Nc : no_clash v).
    { intros p n q p' n' q' X X' E. apply Hen in X as (t & a & H & P1 & P2 & _). apply Hen in X' as (t' & a' & H' & P1' & P2' & _).
      destruct (Ha _ _ H) as (_ & _ & _ & _ & F & _). destruct (Ha _ _ H') as (_ & _ & _ & _ & F' & _).
      rewrite P1, P2, P1', P2', F, F' in E. injection E as <-. assert (a = a') by congruence. subst a'.
      split; apply encode_inj; congruence. }
    destruct (C48_read v Ok) as (coin' & m' & R1 & R2 & R3). specialize (R3 Nc).
    exists v, coin', m'. split; [reflexivity|]. split; [exact Ok|]. split; [exact R1|]. split; [rewrite R2, S1, Hc; reflexivity|].
    intro t. destruct (m !! t) as [a|] eqn:H.
    - destruct (Ha _ _ H) as (Ft & Fa & L1 & L2 & F & q & Hq). apply entry_fits in Fa as [[[p n] q'] Fa].
      apply entry_spec in Fa as (_ & P1 & P2 & P3). rewrite L1 in P1. rewrite L2 in P2.
      assert (X : m' !! t = Some (DAsset (hex_encode p) (hex_encode n) t (dec_of_Z (Z.of_N q)))).
      { apply R3. exists p, n, q. split; [apply Hen; exists t, a; auto|]. split; [congruence|reflexivity]. }
      rewrite X. cbn [da_fp da_policy da_name da_qty]. split; [congruence|]. split; [exact P1|]. split; [exact P2|]. rewrite Hq. apply amount_dec0.
    - destruct (m' !! t) as [a'|] eqn:H'; [|exact I]. apply R3 in H' as (p & n & q & X & Fx & ->). apply Hen in X as (t' & a & H' & P1 & P2 & _).
      destruct (Ha _ _ H') as (_ & _ & _ & _ & F & _). rewrite P1, P2, F in Fx. congruence.
  Qed.

  (** Back and there: a ledger value in which no two assets share a fingerprint is read and written back unchanged. *)
  Theorem C48_ledger_round_trip v : ledger_ok v -> no_clash v ->
    exists coin m, from_ledger v = Some (coin, m) /\ to_ledger coin m = Some v.
  Proof using Hh Hl.
    intros Ok Nc. destruct (C48_read v Ok) as (coin & m & R1 & R2 & R3). specialize (R3 Nc). exists coin, m. split; [exact R1|].
    destruct Ok as [V1 V2].
    assert (Hent : forall p n q, entry_in v p n q -> String.length p = 28%nat /\ (String.length n <= 32)%nat /\ q < 2 ^ 64).
    { intros p n q. unfold entry_in. destruct (lv_multi v) as [l|]; [|contradiction]. apply V2. }
    assert (Hf : forall t a, m !! t = Some a -> fits a).
    { intros t a H. apply R3 in H as (p & n & q & H & _ & ->). destruct (Hent _ _ _ H) as (Lp & Ln & Lq).
      destruct (decode_spec _ _ (decode_encode p)) as (_ & A & A'). destruct (decode_spec _ _ (decode_encode n)) as (_ & B & B').
      unfold fits. cbn [da_policy da_name da_qty]. split; [exact A|]. split; [lia|]. split; [exact B|]. split; [exists (String.length n); exact B'|]. split; [lia|].
      rewrite (floor_int _ (Z.of_N q)) by apply amount_dec0. lia. }
    destruct (to_ledger coin m) as [w|] eqn:T.
    2:{ exfalso. apply C48_refused in T as [H|[H|(t & a & H & Nf)]].
        - rewrite R2 in H. change 0%Q with (inject_Z 0) in H. rewrite <- Zlt_Qlt in H. lia.
        - rewrite (floor_int _ _ R2) in H. lia.
        - apply Nf, (Hf _ _ H). }
    destruct (C48_sent _ _ _ T) as (S1 & S2 & S3).
    { intros t t' a a' H H' [P1 P2]. apply R3 in H as (p & n & q & _ & F & ->). apply R3 in H' as (p' & n' & q' & _ & F' & ->).
      cbn [da_policy da_name] in P1, P2. rewrite !encode_lower in P1, P2. rewrite P1, P2 in F. congruence. }
    rewrite (floor_int _ _ R2) in S1. apply N2Z.inj in S1.
    destruct v as [c ml], w as [c' wl]. cbn [lv_coin lv_multi] in *. subst c'. f_equal. f_equal.
    destruct ml as [l|].
    - destruct V2 as (Ne & NE & V2). assert (Mn : m <> ∅).
      { destruct (map_choose l Ne) as (p & a & H). assert (Na := NE _ _ H). destruct (map_choose a Na) as (n & q & H').
        assert (X : at_place l p n = Some q) by (unfold at_place; rewrite H; exact H'). destruct (V2 _ _ _ X) as (Lp & _).
        destruct (fp_of_bytes p n Lp) as [t Ht]. intros ->. assert (Y : (∅ : gmap token dasset) !! t = Some (DAsset (hex_encode p) (hex_encode n) t (dec_of_Z (Z.of_N q)))).
        { apply R3. exists p, n, q. split; [exact X|]. auto. } rewrite lookup_empty in Y. discriminate. }
      destruct (S3 Mn) as (l' & -> & NE' & S4). f_equal. apply multi_eq; [exact NE'|exact NE|]. intros p n.
      assert (Q : forall q, at_place l' p n = Some q <-> at_place l p n = Some q).
      { intro q. rewrite S4. split.
        - intros (t & a & H & P1 & P2 & P3). apply R3 in H as (p' & n' & q' & X & _ & ->). cbn [da_policy da_name da_qty] in *.
          rewrite encode_lower in P1, P2. apply encode_inj in P1 as ->. apply encode_inj in P2 as ->.
          unfold units_of in P3. rewrite (floor_int _ (Z.of_N q')) in P3 by apply amount_dec0. unfold entry_in in X. cbn in X.
          replace q with q' by lia. exact X.
        - intro X. destruct (V2 _ _ _ X) as (Lp & _). destruct (fp_of_bytes p n Lp) as [t Ht]. exists t. eexists. split.
          { apply R3. exists p, n, q. split; [exact X|]. split; [exact Ht|reflexivity]. }
          cbn [da_policy da_name da_qty]. rewrite !encode_lower. split; [reflexivity|]. split; [reflexivity|]. unfold units_of.
          rewrite (floor_int _ (Z.of_N q)) by apply amount_dec0. lia. }
      destruct (at_place l' p n) as [q|] eqn:X; [symmetry; apply Q; reflexivity|].
      destruct (at_place l p n) as [q|] eqn:Y; [|reflexivity]. assert (Z1 := proj2 (Q q) eq_refl). discriminate.
    - apply S2. apply map_empty. intro t. destruct (m !! t) as [a|] eqn:H; [|reflexivity]. apply R3 in H as (p & n & q & X & _). contradiction.
  Qed.

  (** ** whole outputs *)
  Context {Addr Script Datum : Type} (from_bech32 : string -> option Addr) (to_bech32 : Addr -> option string).
  Context (extra_to_json : option Script * option Datum -> option string) (extra_from_json : string -> option (option Script * option Datum)).
  Context (Haddr : forall a s, to_bech32 a = Some s -> from_bech32 s = Some a).
  Context (Hjson : forall x t, extra_to_json x = Some t -> extra_from_json t = Some x).
  Notation to_output := (utxo_builder_to_cml_output ho from_bech32 extra_from_json).
  Notation from_output := (utxo_builder_from_output blake ho lo to_bech32 extra_to_json).
  Notation to_io := (utxo_details_to_io ho from_bech32 extra_from_json).
  Notation from_io := (utxo_details_from_io blake ho lo to_bech32 extra_to_json).

  Lemma asset_table_ho m : (forall t a, m !! t = Some a -> da_fp a = t) -> asset_table (ho m) = m.
  Proof using Hh.
    intro Hf. assert (K : forall l (m0 : gmap token dasset), NoDup (map da_fp l) -> forall t, foldl (fun m a => <[da_fp a:=a]> m) m0 l !! t =
      match List.find (fun a => bool_decide (da_fp a = t)) l with Some a => Some a | None => m0 !! t end).
    { induction l as [|a l IH]; intros m0 ND t; cbn [foldl List.find]; [reflexivity|]. cbn [map] in ND. apply NoDup_cons in ND as [N1 N2].
      rewrite (IH _ N2). destruct (bool_decide_reflect (da_fp a = t)) as [<-|Ht].
      - destruct (List.find _ l) as [b|] eqn:F; [|apply lookup_insert]. apply List.find_some in F as [F1 F2]. apply bool_decide_eq_true in F2.
        exfalso. apply N1, elem_of_list_fmap. exists b. split; [congruence|]. apply elem_of_list_In, F1.
      - rewrite lookup_insert_ne by exact Ht. reflexivity. }
    assert (ND : NoDup (map da_fp (ho m))).
    { rewrite (Permutation_map da_fp (Hh m)), map_map. assert (E : map (fun x => da_fp x.2) (map_to_list m) = map fst (map_to_list m)).
      { apply map_ext_in. intros [t a] Ht. apply elem_of_list_In, elem_of_map_to_list in Ht. apply Hf, Ht. }
      rewrite E. apply NoDup_fst_map_to_list. }
    apply map_eq. intro t. unfold asset_table. rewrite K by exact ND. rewrite lookup_empty.
    destruct (List.find _ (ho m)) as [a|] eqn:F.
    - apply List.find_some in F as [F1 F2]. apply bool_decide_eq_true in F2. apply elem_of_list_In, in_ho in F1 as [t' Ht].
      rewrite <- F2, (Hf _ _ Ht). symmetry. exact Ht.
    - destruct (m !! t) as [a|] eqn:H; [|reflexivity]. assert (Ha : a ∈ ho m) by (apply in_ho; eauto).
      assert (G := List.find_none _ _ F a (proj1 (elem_of_list_In _ _) Ha)). cbn beta in G. apply bool_decide_eq_false in G. destruct G. apply Hf, H.
  Qed.

  (** An output of the ledger is read and written back unchanged. *)
  Theorem C48_output_round_trip o b : ledger_ok (lo_amount o) -> no_clash (lo_amount o) -> from_output o = Some b -> to_output b = Some o.
  Proof using Hh Hl Haddr Hjson.
    intros Ok Nc. unfold utxo_builder_from_output, utxo_builder_to_cml_output.
    destruct (C48_read _ Ok) as (coin & m & R1 & _ & R3). destruct (C48_ledger_round_trip _ Ok Nc) as (coin' & m' & R1' & T).
    rewrite R1 in R1' |- *. injection R1' as <- <-. destruct (to_bech32 (lo_addr o)) as [a|] eqn:A; [|discriminate].
    destruct (extra_to_json _) as [t|] eqn:J; [|discriminate]. intro H. injection H as <-. cbn [bu_addr bu_value bu_assets bu_extra].
    rewrite (Haddr _ _ A), asset_table_ho, T by (intros t' x Hx; apply (R3 Nc) in Hx as (p & n & q & _ & _ & ->); reflexivity).
    unfold with_extra. rewrite (Hjson _ _ J). destruct o; reflexivity.
  Qed.
  Theorem C48_input_round_trip h i o d : String.length h = 32%nat -> ledger_ok (lo_amount o) -> no_clash (lo_amount o) ->
    from_io (h, i, o) = Some d -> to_io d = Some (h, i, o) /\ de_tx d = hex_encode h /\ de_index d = i.
  Proof using Hh Hl Haddr Hjson.
    intros Lh Ok Nc. unfold utxo_details_from_io, utxo_details_to_io.
    destruct (C48_read _ Ok) as (coin & m & R1 & _ & R3). destruct (C48_ledger_round_trip _ Ok Nc) as (coin' & m' & R1' & T).
    rewrite R1 in R1' |- *. injection R1' as <- <-. destruct (to_bech32 (lo_addr o)) as [a|] eqn:A; [|discriminate].
    destruct (extra_to_json _) as [t|] eqn:J; [|discriminate]. intro H. injection H as <-. cbn [de_tx de_index de_addr de_value de_assets de_extra].
    unfold decode_to_slice. rewrite encode_length, Lh, decode_encode. change (2 * 32 =? 2 * 32)%nat with true. cbn iota.
    rewrite (Haddr _ _ A), asset_table_ho, T by (intros t' x Hx; apply (R3 Nc) in Hx as (p & n & q & _ & _ & ->); reflexivity).
    unfold with_extra. rewrite (Hjson _ _ J). destruct o; auto.
  Qed.
End C48.

(** ** what is not so *)
Definition demo_blake (s : string) : string := string_of_list_ascii (take 20 (reverse (list_ascii_of_string s) ++ repeat zero 20)).
Lemma demo_blake_length s : String.length (demo_blake s) = 20%nat.
Proof.
  assert (L : forall l, String.length (string_of_list_ascii l) = length l) by (induction l as [|c l IH]; [reflexivity|cbn; rewrite IH; reflexivity]).
  unfold demo_blake. rewrite L, take_length, app_length, repeat_length. lia.
Qed.
Definition demo_ho : horder := fun m => (map_to_list m).*2.
Definition demo_lo : lorder := fun m => m' ← map_to_list m; nq ← map_to_list (m'.2); [(m'.1, nq.1, nq.2)].
Lemma demo_ho_fair : fair_h demo_ho.
Proof. intro m. reflexivity. Qed.
Lemma demo_lo_fair : fair_l demo_lo.
Proof.
  intro m. unfold demo_lo. split.
  - assert (N := NoDup_fst_map_to_list m). revert N. generalize (map_to_list m). induction l as [|[p a] l IH]; intro N; [constructor|].
    cbn [fmap list_fmap] in N. apply NoDup_cons in N as [N1 N2]. cbn [mbind list_bind fst snd]. apply NoDup_app. split; [|split; [|apply IH, N2]].
    + assert (K := NoDup_fst_map_to_list a). revert K. generalize (map_to_list a). clear. induction l as [|[n q] l IH]; intro K; [constructor|].
      cbn [fmap list_fmap] in K. apply NoDup_cons in K as [K1 K2]. cbn [mbind list_bind fst snd app]. constructor; [|apply IH, K2].
      intro G. apply elem_of_list_bind in G as ([n' q'] & G1 & G2). apply elem_of_list_singleton in G1. cbn in G1. injection G1 as -> ->.
      apply K1, elem_of_list_fmap. exists (n', q'). auto.
    + intros x X1 X2. apply elem_of_list_bind in X1 as ([n q] & X1 & _). apply elem_of_list_singleton in X1. subst x.
      apply elem_of_list_bind in X2 as ([p' a'] & X2 & X3). apply elem_of_list_bind in X2 as ([n' q'] & X2 & _). apply elem_of_list_singleton in X2.
      cbn in X2. injection X2 as -> _ _. apply N1, elem_of_list_fmap. exists (p', a'). auto.
  - intros p n q. unfold at_place. rewrite elem_of_list_bind. split.
    + intros ([p' a] & H1 & H2). apply elem_of_map_to_list in H2. apply elem_of_list_bind in H1 as ([n' q'] & H1 & H3).
      apply elem_of_map_to_list in H3. apply elem_of_list_singleton in H1. cbn in H1, H3. injection H1 as -> -> ->. rewrite H2. exact H3.
    + destruct (m !! p) as [a|] eqn:H; [|discriminate]. intro H'. exists (p, a). split; [|apply elem_of_map_to_list, H].
      apply elem_of_list_bind. exists (n, q). split; [left|apply elem_of_map_to_list, H'].
Qed.

Definition demo_policy : string := "0102030405060708090a0b0c0d0e0f101112131415161718191a1b1c".
Definition demo_fp (name : string) : token := default "" (fingerprint demo_blake demo_policy name).
Definition demo_asset (name : string) (q : dec) : dasset := DAsset demo_policy name (demo_fp name) q.
Definition policy_bytes : string := default "" (hex_decode demo_policy).

(** Assets listed with an equal fingerprint are not added up: only one of them reaches the ledger, whatever the names. *)
Theorem C48_listed_twice_refuted : exists ho b v, fair_h ho /\
  tokens_to_csl_value ho (bu_value b) (asset_table (bu_assets b)) = Some v /\ Forall fits (bu_assets b) /\
  bu_assets b = [demo_asset "aa" (dec_of_Z 5); demo_asset "aa" (dec_of_Z 7)] /\
  match lv_multi v with Some m => at_place m policy_bytes (default "" (hex_decode "aa")) = Some 7 | None => False end.
Proof.
  exists demo_ho, (Builder "x" (dec_of_Z 1) [demo_asset "aa" (dec_of_Z 5); demo_asset "aa" (dec_of_Z 7)] None).
  cbn [bu_value bu_assets].
  set (v := tokens_to_csl_value demo_ho (dec_of_Z 1) (asset_table [demo_asset "aa" (dec_of_Z 5); demo_asset "aa" (dec_of_Z 7)])).
  assert (V : match v with Some v => match lv_multi v with Some m => at_place m policy_bytes (default "" (hex_decode "aa")) = Some 7 | None => False end | None => False end)
    by (vm_compute; reflexivity).
  destruct v as [v'|]; [|contradiction]. exists v'. split; [apply demo_ho_fair|]. split; [reflexivity|]. split; [|split; [reflexivity|exact V]].
  repeat constructor; apply entry_fits; vm_compute; eauto.
Qed.
(** A negative quantity is not refused: it is sent as zero. *)
Theorem C48_negative_refuted : exists a, (amount (da_qty a) < 0)%Q /\ fits a /\
  forall p n q, asset_entry a = Some (p, n, q) -> q = 0.
Proof.
  exists (demo_asset "aa" (dec_of_Z (-5))). split; [reflexivity|]. split; [apply entry_fits; vm_compute; eauto|].
  intros p n q H. apply entry_spec in H as (_ & _ & _ & H). change (units_of (da_qty (demo_asset "aa" (dec_of_Z (-5))))) with 0%Z in H. lia.
Qed.
(** The fingerprint given with an asset is not checked: the ledger value does not depend on it. *)
Theorem C48_fingerprint_ignored a f : asset_entry (DAsset (da_policy a) (da_name a) f (da_qty a)) = asset_entry a.
Proof. destruct a; reflexivity. Qed.

(** ** concrete cases *)
Example C47_case :
  fingerprint demo_blake demo_policy "C0ffee" = Some "eeffc01c1b1a191817161514131211100f0e0d0c000000000000000000000000" /\
  fingerprint demo_blake demo_policy "c0FFEE" = fingerprint demo_blake demo_policy "C0ffee" /\
  is_Some (fingerprint demo_blake demo_policy "") /\
  fingerprint demo_blake demo_policy "c0f" = None /\ fingerprint demo_blake demo_policy "zz" = None /\
  fingerprint demo_blake (demo_policy ++ "00") "c0" = None.
Proof. vm_compute. eauto 10. Qed.

Definition demo_table : gmap token dasset := {[ demo_fp "aa" := demo_asset "aa" (dec_of_Z 5); demo_fp "" := demo_asset "" (Dec 700 2) ]}.
(** the hypotheses of C48_round_trip hold of a table with two assets *)
Example C48_table_case : demo_fp "aa" <> demo_fp "" /\ forall t a, demo_table !! t = Some a ->
  da_fp a = t /\ fits a /\ lower (da_policy a) = da_policy a /\ lower (da_name a) = da_name a /\
  fingerprint demo_blake (da_policy a) (da_name a) = Some t /\ exists q, (amount (da_qty a) == inject_Z (Z.of_N q))%Q.
Proof.
  split; [intro H; apply (f_equal (String.eqb (demo_fp "aa"))) in H; vm_compute in H; discriminate|].
  intros t a H. unfold demo_table in H. apply lookup_insert_Some in H as [[<- <-]|[_ H]]; [|apply lookup_singleton_Some in H as [<- <-]].
  - split; [reflexivity|]. split; [apply entry_fits; vm_compute; eauto|]. split; [reflexivity|]. split; [reflexivity|]. split; [reflexivity|]. exists 5. reflexivity.
  - split; [reflexivity|]. split; [apply entry_fits; vm_compute; eauto|]. split; [reflexivity|]. split; [reflexivity|]. split; [reflexivity|]. exists 7. reflexivity.
Qed.
(** and those of C48_ledger_round_trip hold of a value with two assets *)
Definition demo_value : lvalue := LValue 9000000 (Some {[ policy_bytes := {[ "ab" := 3; "cd" := 4 ]} ]}).
Example C48_value_case : ledger_ok demo_value /\ no_clash demo_blake demo_value /\ entry_in demo_value policy_bytes "ab" 3 /\ entry_in demo_value policy_bytes "cd" 4.
Proof.
  assert (K : forall p n q, entry_in demo_value p n q <-> p = policy_bytes /\ (n = "ab" /\ q = 3 \/ n = "cd" /\ q = 4)).
  { intros p n q. unfold entry_in, demo_value, at_place. cbn [lv_multi]. destruct (decide (p = policy_bytes)) as [->|Hp].
    - rewrite lookup_singleton. rewrite lookup_insert_Some, lookup_singleton_Some. split; [intros [[<- <-]|(_ & <- & <-)]; auto|].
      intros [_ [[-> ->]|[-> ->]]]; [auto|]. right. split; [discriminate|auto].
    - rewrite lookup_singleton_ne by congruence. split; [discriminate|]. intros [H _]. contradiction. }
  split; [|split; [|split; apply K; auto]].
  - split; [reflexivity|]. cbn [demo_value lv_multi]. split; [intro H; apply (f_equal (lookup policy_bytes)) in H; rewrite lookup_singleton, lookup_empty in H; discriminate|].
    split.
    + intros p a H. apply lookup_singleton_Some in H as [_ <-]. intro H. apply (f_equal (lookup "ab")) in H. rewrite lookup_insert, lookup_empty in H. discriminate.
    + intros p n q H. apply (K p n q) in H as [-> [[-> ->]|[-> ->]]]; (split; [reflexivity|]); split; cbn; try lia; reflexivity.
  - intros p n q p' n' q' H H' E. apply K in H as [-> [[-> ->]|[-> ->]]]; apply K in H' as [-> [[-> ->]|[-> ->]]]; auto; vm_compute in E; discriminate.
Qed.

Print Assumptions C47_accepts.
Print Assumptions C47_shape.
Print Assumptions C47_identifies.
Print Assumptions C47_not_main.
Print Assumptions C48_refused.
Print Assumptions C48_sent.
Print Assumptions C48_read.
Print Assumptions C48_round_trip.
Print Assumptions C48_ledger_round_trip.
Print Assumptions C48_output_round_trip.
Print Assumptions C48_input_round_trip.
Print Assumptions C48_listed_twice_refuted.
Print Assumptions C48_negative_refuted.
Print Assumptions C48_fingerprint_ignored.
