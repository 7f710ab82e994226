(** Proofs about hexadecimal text, quantities and ledger values. *)
From Coq Require Import ZArith QArith Qround Lia Ascii.
From stdpp Require Import gmap strings list.
From Verif Require Import ValueModel ValueSpec ValueProofs StoreModel EstimModel EstimProps UtilModel.
Open Scope N_scope.

(** ** strings *)
Local Arguments String.append !_ _ / : simpl nomatch.
Local Arguments String.length !_ / : simpl nomatch.
Lemma len_app (a b : string) : String.length (a ++ b)%string = (String.length a + String.length b)%nat.
Proof. induction a as [|c a IH]; cbn; [reflexivity|rewrite IH; reflexivity]. Qed.
Lemma app_same_length (a b a' b' : string) : (a ++ b)%string = (a' ++ b')%string -> String.length a = String.length a' -> a = a' /\ b = b'.
Proof.
  revert a'. induction a as [|c a IH]; intros [|c' a'] H L; try discriminate; [auto|]. cbn in H, L. injection H as -> H. injection L as L.
  destruct (IH a' H L) as [-> ->]. auto.
Qed.
Lemma len_zeros n : String.length (zeros_string n) = n.
Proof. induction n as [|n IH]; cbn; [reflexivity|rewrite IH; reflexivity]. Qed.

(** ** hexadecimal *)
Definition lower_char (c : ascii) : ascii := if (65 <=? N_of_ascii c) && (N_of_ascii c <=? 90) then ascii_of_N (N_of_ascii c + 32) else c.
Fixpoint lower (s : string) : string := match s with EmptyString => EmptyString | String c s => String (lower_char c) (lower s) end.
Definition hex_digits : list ascii := list_ascii_of_string "0123456789abcdefABCDEF".
Definition all_hex (s : string) : Prop := Forall (fun c => c ∈ hex_digits) (list_ascii_of_string s).

Lemma hexval_spec c x : hexval c = Some x -> x < 16 /\ hexchar x = lower_char c.
Proof.
  destruct c as [[|] [|] [|] [|] [|] [|] [|] [|]]; intro H; try discriminate H; vm_compute in H; injection H as <-; split; reflexivity.
Qed.
Lemma hexval_hexchar x : x < 16 -> hexval (hexchar x) = Some x.
Proof.
  intro H. destruct x as [|p]; [reflexivity|].
  do 4 (destruct p as [p|p|]; [| |reflexivity]); try reflexivity; exfalso; lia.
Qed.
Lemma hexval_some c : is_Some (hexval c) <-> c ∈ hex_digits.
Proof.
  split.
  - intros [x H]. apply (bool_decide_unpack _). destruct c as [[|] [|] [|] [|] [|] [|] [|] [|]]; try discriminate H; vm_compute; exact I.
  - intro H. repeat (apply elem_of_cons in H as [->|H]; [vm_compute; eauto|]). inversion H.
Qed.
Lemma byte_split c : ascii_of_N (16 * (N_of_ascii c / 16) + N_of_ascii c mod 16) = c.
Proof. rewrite <- N.div_mod by lia. apply ascii_N_embedding. Qed.
Lemma byte_bound c : N_of_ascii c < 256.
Proof. destruct c as [[|] [|] [|] [|] [|] [|] [|] [|]]; vm_compute; reflexivity. Qed.
Lemma decode_encode s : hex_decode (hex_encode s) = Some s.
Proof.
  induction s as [|c s IH]; [reflexivity|]. cbn [hex_encode hex_decode]. assert (B := byte_bound c).
  rewrite !hexval_hexchar by (first [apply N.mod_lt; lia|apply N.div_lt_upper_bound; lia]). rewrite IH, byte_split. reflexivity.
Qed.
Lemma encode_inj a b : hex_encode a = hex_encode b -> a = b.
Proof. intro H. apply (f_equal hex_decode) in H. rewrite !decode_encode in H. congruence. Qed.
Lemma encode_length s : String.length (hex_encode s) = (2 * String.length s)%nat.
Proof. induction s as [|c s IH]; [reflexivity|]. cbn [hex_encode String.length]. lia. Qed.
Lemma decode_spec : forall s b, hex_decode s = Some b -> hex_encode b = lower s /\ all_hex s /\ String.length s = (2 * String.length b)%nat.
Proof.
  fix IH 1. intros [|a [|b s]] r; cbn [hex_decode].
  - intro H. injection H as <-. split; [reflexivity|]. split; [constructor|reflexivity].
  - discriminate.
  - destruct (hexval a) as [x|] eqn:X; [|discriminate]. destruct (hexval b) as [y|] eqn:Y; [|discriminate].
    destruct (hex_decode s) as [r'|] eqn:R; [|discriminate]. intro H.
    assert (H' : r = String (ascii_of_N (16 * x + y)) r') by congruence. subst r. clear H. destruct (IH s r' R) as (A & B & C).
    destruct (hexval_spec _ _ X) as [X1 X2]. destruct (hexval_spec _ _ Y) as [Y1 Y2]. cbn [hex_encode lower String.length].
    rewrite N_ascii_embedding by lia.
    assert (D1 : (16 * x + y) / 16 = x) by (rewrite N.mul_comm, N.div_add_l, N.div_small by lia; lia).
    assert (D2 : (16 * x + y) mod 16 = y) by (rewrite N.mul_comm, N.add_comm, N.mod_add, N.mod_small by lia; reflexivity).
    rewrite D1, D2, A, X2, Y2. split; [reflexivity|]. split; [|lia].
    constructor; [apply hexval_some; eauto|]. constructor; [apply hexval_some; eauto|]. exact B.
Qed.
Lemma decode_some : forall s, all_hex s -> Nat.Even (String.length s) -> is_Some (hex_decode s).
Proof.
  fix IH 1. intros [|a [|b s]] H E; cbn [hex_decode].
  - eauto.
  - exfalso. destruct E as [k E]. cbn in E. lia.
  - unfold all_hex in H. cbn [list_ascii_of_string] in H. apply Forall_cons in H as [Ha H]. apply Forall_cons in H as [Hb H]. apply hexval_some in Ha as [x ->]. apply hexval_some in Hb as [y ->].
    destruct (IH s H) as [r ->]; [|eauto]. destruct E as [k E]. change (String.length (String a (String b s))) with (S (S (String.length s))) in E. exists (k - 1)%nat. lia.
Qed.
Lemma lower_char_hex c : c ∈ list_ascii_of_string "0123456789abcdef" -> lower_char c = c.
Proof. intro H. repeat (apply elem_of_cons in H as [->|H]; [reflexivity|]). inversion H. Qed.
Lemma encode_lower b : lower (hex_encode b) = hex_encode b.
Proof. destruct (decode_spec _ _ (decode_encode b)) as [A _]. symmetry. exact A. Qed.

(** ** quantities *)
Lemma truncate_scale v : scale (truncate v) = 0%Z.
Proof.
  destruct (Qlt_le_dec (amount v) 0) as [Hl|Hl]; [rewrite truncate_neg by exact Hl; reflexivity|].
  unfold truncate. destruct (dec_ltb v (dec_of_Z 1)) eqn:E; [reflexivity|].
  pose proof (proj1 (amount_nonneg v) Hl) as Hd. unfold show. destruct (Z.ltb_spec (digits v) 0) as [G|_]; [lia|].
  destruct (split_show_abs (digits v) (scale v) Hd) as (a & b & Fa & Fb & NE & L & V & Sp & _). rewrite Sp.
  destruct a as [|x xs]; [congruence|]. cbn [map].
  rewrite parse_dec_nosign by (apply digit_char_not_sign; inversion Fa; assumption).
  change (digit_char x :: map digit_char xs) with (map digit_char (x :: xs)).
  unfold parse_abs. rewrite split_dot_digits_only by exact Fa. cbv beta iota zeta. rewrite app_nil_r.
  pose proof (read_digits_map 0 _ Fa) as R. cbn [map] in R |- *. rewrite R. reflexivity.
Qed.
Lemma truncate_exact v : (0 <= amount v)%Q -> truncate v = Dec (Qfloor (amount v)) 0.
Proof.
  intro H. assert (S := truncate_scale v). assert (A := truncate_nonneg v H). destruct (truncate v) as [d s]. cbn in S. subst s.
  rewrite amount_dec0 in A. apply inject_Z_inj in A. congruence.
Qed.
Lemma show_int n : (0 <= n)%Z -> show (Dec n 0) = show_nat n.
Proof.
  intro H. unfold show. cbn [digits scale]. destruct (Z.ltb_spec n 0); [lia|]. unfold show_abs.
  destruct (show_nat_digits n H) as (es & E & _ & _ & NE). assert (L : (0 < tlen (show_nat n))%Z).
  { rewrite E. unfold tlen. rewrite map_length. destruct es; [congruence|]. cbn [length]. lia. }
  destruct (Z.leb_spec (tlen (show_nat n)) 0); [lia|]. rewrite Z.sub_0_r, Z.ltb_irrefl.
  unfold tlen. rewrite Nat2Z.id, firstn_all, skipn_all. reflexivity.
Qed.
Lemma quantity_spec v q : quantity_to_bignum v = Some q <->
  ((amount v < 0)%Q /\ q = 0) \/ ((0 <= amount v)%Q /\ Z.of_N q = Qfloor (amount v) /\ q < 2 ^ 64).
Proof.
  unfold quantity_to_bignum. destruct (Qlt_le_dec (amount v) 0) as [Hl|Hl].
  - rewrite truncate_neg by exact Hl. change (show (dec_of_Z 0)) with (show_nat (Z.of_N 0)). rewrite parse_u64_shown. change (0 <? 2 ^ 64) with true. cbn iota.
    split; [intro H; injection H as <-; auto|]. intros [[_ ->]|[H _]]; [reflexivity|]. exfalso. apply (Qlt_not_le _ _ Hl), H.
  - rewrite truncate_exact by exact Hl. assert (F : (0 <= Qfloor (amount v))%Z).
    { change 0%Z with (Qfloor (inject_Z 0)). apply Qfloor_resp_le. exact Hl. }
    rewrite show_int by exact F. rewrite <- (Z2N.id _ F) at 1. rewrite parse_u64_shown. destruct (N.ltb_spec (Z.to_N (Qfloor (amount v))) (2 ^ 64)) as [B|B].
    + split; [intro H; injection H as <-; right; split; [exact Hl|]; split; [apply Z2N.id, F|exact B]|].
      intros [[H _]|(_ & H & _)]; [exfalso; apply (Qlt_not_le _ _ H), Hl|]. rewrite <- H, N2Z.id. reflexivity.
    + split; [discriminate|]. intros [[H _]|(_ & H & H')]; [exfalso; apply (Qlt_not_le _ _ H), Hl|]. rewrite <- H, N2Z.id in B. lia.
Qed.
Lemma coin_spec v c : value_to_csl_coin v = Some c <-> (0 <= amount v)%Q /\ Z.of_N c = Qfloor (amount v) /\ c < 2 ^ 64.
Proof.
  unfold value_to_csl_coin, dec_to_u64. destruct (Z.ltb_spec (digits v) 0) as [Hd|Hd].
  - split; [discriminate|]. intros [H _]. apply amount_nonneg in H. lia.
  - assert (H0 := proj2 (amount_nonneg v) Hd).
    assert (F : (if (scale v <? 0)%Z then digits v * 10 ^ (- scale v) else digits v / 10 ^ scale v)%Z = Qfloor (amount v)).
    { destruct (Z.ltb_spec (scale v) 0) as [Hs|Hs]; [|symmetry; apply Qfloor_amount, Hs].
      assert (A : (amount v == inject_Z (digits v * 10 ^ (- scale v)))%Q).
      { rewrite amount_alt, inject_Z_mult, pow10_Z by lia. reflexivity. }
      rewrite (Qfloor_comp _ _ A), Qfloor_Z. reflexivity. }
    rewrite F. assert (P : (0 <= Qfloor (amount v))%Z).
    { change 0%Z with (Qfloor (inject_Z 0)). apply Qfloor_resp_le. exact H0. }
    rewrite big_some. split.
    + intros [-> B]. split; [exact H0|]. split; [apply Z2N.id, P|exact B].
    + intros (_ & H & B). rewrite <- H, N2Z.id. auto.
Qed.
Lemma floor_int v z : (amount v == inject_Z z)%Q -> Qfloor (amount v) = z.
Proof. intro H. rewrite (Qfloor_comp _ _ H). apply Qfloor_Z. Qed.

(** ** ledger values *)
Definition at_place (m : multi) (p n : string) : option N := match m !! p with Some a => a !! n | None => None end.
Lemma at_set m p n q p' n' : at_place (set_asset m p n q) p' n' = if decide (p = p' /\ n = n') then Some q else at_place m p' n'.
Proof.
  unfold at_place, set_asset. destruct (decide (p = p')) as [<-|Hp].
  - rewrite lookup_insert. destruct (decide (n = n')) as [<-|Hn].
    + rewrite lookup_insert, decide_True by auto. reflexivity.
    + rewrite lookup_insert_ne, decide_False by tauto. destruct (m !! p); reflexivity.
  - rewrite lookup_insert_ne, decide_False by tauto. reflexivity.
Qed.
Definition no_empty (m : multi) : Prop := forall p a, m !! p = Some a -> a <> ∅.
Lemma no_empty_set m p n q : no_empty m -> no_empty (set_asset m p n q).
Proof.
  intros H p' a. unfold set_asset. destruct (decide (p = p')) as [<-|Hp].
  - rewrite lookup_insert. intro X. injection X as <-. apply insert_non_empty.
  - rewrite lookup_insert_ne by exact Hp. apply H.
Qed.
Lemma multi_eq (m m' : multi) : no_empty m -> no_empty m' -> (forall p n, at_place m p n = at_place m' p n) -> m = m'.
Proof.
  intros N1 N2 H. apply map_eq. intro p. specialize (H p). unfold at_place in H.
  destruct (m !! p) as [a|] eqn:A, (m' !! p) as [a'|] eqn:A'; [| | |reflexivity].
  - f_equal. apply map_eq. exact H.
  - exfalso. apply (N1 _ _ A). apply map_empty. exact H.
  - exfalso. apply (N2 _ _ A'). apply map_empty. intro n. symmetry. apply H.
Qed.

Definition place_of (a : dasset) : option (string * string) := option_map fst (asset_entry a).
Lemma set_assets_none l : forall m, set_assets l m = None <-> exists a, a ∈ l /\ asset_entry a = None.
Proof.
  induction l as [|a l IH]; intro m; cbn [set_assets].
  - split; [discriminate|]. intros (a & H & _). inversion H.
  - destruct (asset_entry a) as [[[p n] q]|] eqn:X.
    + rewrite IH. split; intros (b & H & Y); exists b; (split; [|exact Y]); [right; exact H|].
      apply elem_of_cons in H as [->|H]; [congruence|exact H].
    + split; [|reflexivity]. intros _. exists a. split; [left|exact X].
Qed.
Lemma set_assets_at l : forall m m', NoDup (map place_of l) -> set_assets l m = Some m' ->
  forall p n, (forall a q, a ∈ l -> asset_entry a = Some (p, n, q) -> at_place m' p n = Some q) /\
              ((forall a q, a ∈ l -> asset_entry a <> Some (p, n, q)) -> at_place m' p n = at_place m p n).
Proof.
  induction l as [|a l IH]; intros m m' HN; cbn [set_assets].
  - intro H. injection H as <-. intros p n. split; [intros a q Ha; inversion Ha|reflexivity].
  - destruct (asset_entry a) as [[[p0 n0] q0]|] eqn:X; [|discriminate]. intros H p n.
    cbn [map] in HN. apply NoDup_cons in HN as [Hnot HN]. destruct (IH _ _ HN H p n) as [I1 I2]. rewrite at_set in I2. split.
    + intros b q Hb Hq. apply elem_of_cons in Hb as [->|Hb]; [|exact (I1 b q Hb Hq)]. rewrite Hq in X. injection X as <- <- <-.
      rewrite I2; [rewrite decide_True by auto; reflexivity|]. intros b' q' Hb' Hq'. apply Hnot, elem_of_list_fmap. exists b'.
      split; [|exact Hb']. unfold place_of. rewrite Hq, Hq'. reflexivity.
    + intro Hx. rewrite I2; [|intros b q Hb; apply Hx; right; exact Hb]. rewrite decide_False; [reflexivity|]. intros [<- <-].
      apply (Hx a q0); [left|exact X].
Qed.
Lemma set_assets_no_empty l : forall m m', no_empty m -> set_assets l m = Some m' -> no_empty m'.
Proof.
  induction l as [|a l IH]; intros m m' H; cbn [set_assets]; [intro X; injection X as <-; exact H|].
  destruct (asset_entry a) as [[[p0 n0] q0]|]; [|discriminate]. apply IH, no_empty_set, H.
Qed.

(** the entries of a value *)
Definition fair_h (ho : horder) : Prop := forall m, ho m ≡ₚ map snd (map_to_list m).
Definition fair_l (lo : lorder) : Prop := forall m, NoDup (lo m) /\ forall p n q, (p, n, q) ∈ lo m <-> at_place m p n = Some q.
