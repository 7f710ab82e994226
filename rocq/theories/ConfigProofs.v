(** Proofs about the configuration documents. *)
From Coq Require Import ZArith NArith Ascii String Lia.
From stdpp Require Import prelude numbers strings list.
From Verif Require Import ValueModel EstimModel TimeModel UtilModel JsonModel MultisigModel JsonSpec JsonProofs ConfigModel ConfigSpec.
Open Scope Z_scope.

Lemma gives_spec kvs n v : gives kvs n v <-> find_field kvs n = Some v /\ (count_field kvs n <= 1)%nat.
Proof.
  induction kvs as [|[k w] kvs IH].
  - split; [intros (a & b & E & _); destruct a; discriminate|intros [E _]; discriminate].
  - rewrite find_field_cons, count_field_cons. destruct (String.eqb_spec k n) as [->|K].
    + assert (C : (1 + count_field kvs n <= 1)%nat <-> n ∉ map fst kvs).
      { rewrite <- (Nat.add_le_mono_l (count_field kvs n) 0 1). rewrite Nat.le_0_r, count_absent. clear. induction kvs as [|[k w] kvs IH].
        - split; [intros _ H; inversion H|reflexivity].
        - rewrite find_field_cons. cbn. rewrite not_elem_of_cons. destruct (String.eqb_spec k n) as [->|K]; [split; [discriminate|intros [H _]; congruence]|].
          rewrite IH. split; [intros H; split; [congruence|exact H]|intros [_ H]; exact H]. }
      rewrite C. split.
      * intros (a & b & E & Na & Nb). destruct a as [|[k' w'] a]; cbn in E; injection E; [intros -> ->; split; [reflexivity|exact Nb]|].
        intros _ _ ->. cbn in Na. rewrite not_elem_of_cons in Na. destruct Na as [Na _]. congruence.
      * intros [E Nb]. injection E as ->. exists [], kvs. split; [reflexivity|]. split; [intros H; inversion H|exact Nb].
    + cbn [Nat.add]. rewrite <- IH. split.
      * intros (a & b & E & Na & Nb). destruct a as [|[k' w'] a]; cbn in E; injection E; [intros; congruence|].
        intros -> -> ->. exists a, b. split; [reflexivity|]. split; [|exact Nb]. cbn in Na. rewrite not_elem_of_cons in Na. apply Na.
      * intros (a & b & -> & Na & Nb). exists ((k, w) :: a), b. split; [reflexivity|]. split; [|exact Nb]. cbn. rewrite not_elem_of_cons. split; [congruence|exact Na].
Qed.
Lemma keys_known names (kvs : list (string * json)) : forallb (fun kv => known names (fst kv)) kvs = true <-> (forall k, k ∈ map fst kvs -> k ∈ names).
Proof.
  rewrite forallb_forall. split.
  - intros H k K. apply elem_of_list_In, in_map_iff in K. destruct K as ([k' w] & <- & K). apply known_in, (H _ K).
  - intros H [k w] K. apply known_in, H, elem_of_list_In, in_map_iff. exists (k, w). split; [reflexivity|exact K].
Qed.
Lemma finds_gives kvs names vals :
  forallb (fun n => Nat.leb (count_field kvs n) 1) names = true /\ map (find_field kvs) names = map Some vals <-> Forall2 (gives kvs) names vals.
Proof.
  revert vals. induction names as [|n names IH]; intros vals; cbn.
  - split; [intros [_ E]; destruct vals; [constructor|discriminate]|intros F; inversion F; split; reflexivity].
  - destruct vals as [|v vals]; cbn; [split; [intros [_ E]; discriminate|intros F; inversion F]|].
    rewrite Forall2_cons, gives_spec, <- IH, andb_true_iff, Nat.leb_le. split.
    + intros [[A B] E]. injection E as E1 E2. tauto.
    + intros [[A B] [C D]]. rewrite A, D. tauto.
Qed.
Lemma struct_document names deny j vals : struct_fields names deny j = Some (map Some vals) <-> document names deny vals j.
Proof.
  unfold document, struct_fields. destruct j as [| | | | |l|kvs]; try (split; [discriminate|intros [(x & E & _)|[E _]]; discriminate]).
  - split.
    + destruct (Nat.leb_spec (length l) (length names)) as [L|]; [|discriminate]. intros E. injection E as E. right.
      assert (Q : forall (l : list json) n vals, map Some l ++ replicate n None = map Some vals -> l = vals /\ n = 0%nat).
      { clear. induction l as [|x l IH]; intros n vals E.
        - destruct n; [destruct vals; [split; reflexivity|discriminate]|destruct vals; discriminate].
        - destruct vals as [|v vals]; [discriminate|]. cbn in E. injection E as -> E. destruct (IH _ _ E) as [-> ->]. split; reflexivity. }
      destruct (Q _ _ _ E) as [-> Z]. split; [reflexivity|]. lia.
    + intros [(x & E & _)|[E L]]; [discriminate|]. injection E as ->. rewrite L, Nat.leb_refl, Nat.sub_diag. cbn. rewrite app_nil_r. reflexivity.
  - destruct (forallb (fun n => Nat.leb (count_field kvs n) 1) names) eqn:C.
    + cbn [andb]. destruct deny; cbn [negb orb].
      * destruct (forallb _ kvs) eqn:K.
        -- split.
           ++ intros E. injection E as E. left. exists kvs. split; [reflexivity|]. split; [apply finds_gives; tauto|]. intros _. apply keys_known. exact K.
           ++ intros [(x & E & F & _)|[E _]]; [|discriminate]. injection E as <-. apply finds_gives in F. f_equal. apply F.
        -- split; [discriminate|]. intros [(x & E & F & D)|[E _]]; [|discriminate]. injection E as <-. specialize (D eq_refl). apply keys_known in D. congruence.
      * split.
        -- intros E. injection E as E. left. exists kvs. split; [reflexivity|]. split; [apply finds_gives; tauto|discriminate].
        -- intros [(x & E & F & _)|[E _]]; [|discriminate]. injection E as <-. apply finds_gives in F. f_equal. apply F.
    + cbn. split; [discriminate|]. intros [(x & E & F & _)|[E _]]; [|discriminate]. injection E as <-. apply finds_gives in F. destruct F. congruence.
Qed.

Lemma read_u32_spec j n : read_u32 j = Some n <-> j = JInt (Z.of_N n) /\ (n < 2 ^ 32)%N.
Proof.
  destruct j as [| |z| | | |]; unfold read_u32, read_u8; try (split; [discriminate|intros [E _]; discriminate]). destruct (Z.leb_spec 0 z); destruct (Z.ltb_spec z (2 ^ 32)); cbn; (split; [intros E|intros [E B]; injection E as ->]); try discriminate; try lia.
  - injection E as <-. split; [rewrite Z2N.id by lia; reflexivity|lia].
  - rewrite N2Z.id. reflexivity.
Qed.
Lemma read_u8_spec j n : read_u8 j = Some n <-> j = JInt (Z.of_N n) /\ (n < 256)%N.
Proof.
  destruct j as [| |z| | | |]; unfold read_u32, read_u8; try (split; [discriminate|intros [E _]; discriminate]). destruct (Z.leb_spec 0 z); destruct (Z.ltb_spec z 256); cbn; (split; [intros E|intros [E B]; injection E as ->]); try discriminate; try lia.
  - injection E as <-. split; [rewrite Z2N.id by lia; reflexivity|lia].
  - rewrite N2Z.id. reflexivity.
Qed.
Lemma read_string_spec j s : read_string j = Some s <-> j = JStr s.
Proof. destruct j; cbn; split; intros E; try discriminate; congruence. Qed.
Lemma read_value_spec j v : read_value j = Some v <-> is_amount j v.
Proof.
  unfold is_amount. destruct j as [| |z| |s| |]; unfold read_value; try (split; [discriminate|intros [(s & E & _)|(n & E & _)]; discriminate]).
  - destruct (Z.leb_spec 0 z); destruct (Z.ltb_spec z (2 ^ 64)); cbn; (split; [intros E|intros [(s & E & _)|(n & E & B & V)]; [discriminate|]; injection E as ->]); try discriminate; try lia.
    + injection E as <-. right. exists (Z.to_N z). rewrite Z2N.id by lia. split; [reflexivity|]. split; [lia|reflexivity].
    + subst. reflexivity.
  - split; [intros E; left; exists s; split; [reflexivity|exact E]|]. intros [(t & E & V)|(n & E & _)]; [|discriminate]. injection E as <-. exact V.
Qed.
Lemma required_spec {A} (r : json -> option A) o a : required r o = Some a <-> exists j, o = Some j /\ r j = Some a.
Proof. destruct o as [j|]; cbn; split; [intros H; eexists; split; [reflexivity|exact H]|intros (x & E & H); injection E as ->; exact H|discriminate|intros (x & E & _); discriminate]. Qed.

(** takes the readings in a goal [ x ← required r a; … = Some _ ] apart *)
Ltac reading H :=
  repeat match type of H with
         | mbind _ _ = Some _ => apply bind_Some in H; let x := fresh "x" in let Q := fresh "Q" in destruct H as (x & Q & H); apply required_spec in Q; destruct Q as (? & -> & Q)
         end.
Ltac rewriting := repeat (match goal with H : _ = Some _ |- _ => rewrite H; clear H end; cbn [mbind option_bind]); reflexivity.

Lemma era_doc j e :
  era_of_json j = Some e <->
  exists a b c d f, document era_names false [a; b; c; d; f] j /\ read_u64 a = Some (first_slot e) /\ read_u64 b = Some (start_epoch e) /\ read_u64 c = Some (known_time e) /\
    read_u64 d = Some (slot_length e) /\ read_u64 f = Some (epoch_length_seconds e).
Proof.
  unfold era_of_json. split.
  - intros H. destruct (struct_fields _ _ _) as [[|a [|b [|c [|d [|f [|]]]]]]|] eqn:E; try discriminate. reading H. injection H as <-.
    eexists _, _, _, _, _. split; [apply struct_document; exact E|]. cbn. tauto.
  - intros (a & b & c & d & f & D & A & B & C & F & G). apply struct_document in D. rewrite D. cbn [map required]. destruct e. cbn in *. rewriting.
Qed.
Lemma thermostat_doc j t :
  thermostat_of_json j = Some t <->
  exists a b c d f, document thermostat_names true [a; b; c; d; f] j /\ read_u64 a = Some (td_num t) /\ read_u64 b = Some (td_num_assets t) /\
    read_value c = Some (td_min t) /\ read_value d = Some (td_max t) /\ read_string f = Some (td_main t).
Proof.
  unfold thermostat_of_json. split.
  - intros H. destruct (struct_fields _ _ _) as [[|a [|b [|c [|d [|f [|]]]]]]|] eqn:E; try discriminate. reading H. injection H as <-.
    eexists _, _, _, _, _. split; [apply struct_document; exact E|]. cbn. tauto.
  - intros (a & b & c & d & f & D & A & B & C & F & G). apply struct_document in D. rewrite D. cbn [map required]. destruct t. cbn in *. rewriting.
Qed.
Lemma custom_doc j n :
  custom_of_json j = Some n <->
  exists m i x y w p k v t, n = NCustom m i x y w p k v t /\
    document custom_names true [JInt (Z.of_N m); JInt (Z.of_N i); JStr x; JStr y; JStr w; JStr p; JStr k; JInt (Z.of_N v); JInt (Z.of_N t)] j /\
    (m < 2 ^ 32)%N /\ (i < 256)%N /\ (v < 2 ^ 32)%N /\ (t < 2 ^ 32)%N.
Proof.
  unfold custom_of_json. split.
  - intros H. destruct (struct_fields _ _ _) as [[|a [|b [|c [|d [|e [|f [|g [|h [|i [|]]]]]]]]]]|] eqn:E; try discriminate. reading H. injection H as <-.
    eexists _, _, _, _, _, _, _, _, _. split; [reflexivity|].
    repeat match goal with Q : read_u32 _ = Some _ |- _ => apply read_u32_spec in Q; destruct Q as [-> Q] | Q : read_u8 _ = Some _ |- _ => apply read_u8_spec in Q; destruct Q as [-> Q] | Q : read_string _ = Some _ |- _ => apply read_string_spec in Q; subst end.
    split; [apply struct_document; exact E|]. tauto.
  - intros (m & i & x & y & w & p & k & v & t & -> & D & M & I1 & V & T). apply struct_document in D. rewrite D. cbn [map required].
    assert (U : forall n, (n < 2 ^ 32)%N -> read_u32 (JInt (Z.of_N n)) = Some n) by (intros; apply read_u32_spec; tauto).
    assert (U8 : read_u8 (JInt (Z.of_N i)) = Some i) by (apply read_u8_spec; tauto).
    rewrite !(U _ M), U8, (U _ V), (U _ T). reflexivity.
Qed.

(** ** the rule of the multiverse, read as three fields *)
Definition rule_names : list string := ["rule"; "depth"; "age_gap"]%string.
Definition rule_three (j : json) : option rule :=
  match struct_fields rule_names false j with
  | Some [Some (JStr t); a; b] => if String.eqb t "LongestChain" then d ← required read_u64 a; g ← required read_u64 b; Some (LongestChain d g) else None
  | _ => None
  end.
Lemma without_field kvs n m : n <> m -> find_field (List.filter (fun kv => negb (String.eqb (fst kv) n)) kvs) m = find_field kvs m /\
  count_field (List.filter (fun kv => negb (String.eqb (fst kv) n)) kvs) m = count_field kvs m.
Proof.
  intros D. induction kvs as [|[k v] kvs [IH1 IH2]]; [split; reflexivity|]. cbn [List.filter fst]. rewrite find_field_cons, count_field_cons.
  destruct (String.eqb_spec k n) as [->|K]; cbn [negb].
  - destruct (String.eqb_spec n m); [contradiction|]. cbn. tauto.
  - rewrite find_field_cons, count_field_cons, IH1, IH2. tauto.
Qed.
Lemma rule_alt j : rule_of_json j = rule_three j.
Proof.
  destruct j as [| | | | |l|kvs]; try reflexivity.
  - destruct l as [|x l]; [reflexivity|]. unfold rule_three, rule_of_json, rule_fields, struct_fields, rule_names.
    destruct l as [|a [|b [|c [|d l]]]]; destruct x; try reflexivity; cbn; destruct (String.eqb _ _); reflexivity.
  - unfold rule_three, rule_of_json, rule_fields, struct_fields, rule_names. cbn [forallb negb orb map].
    destruct (without_field kvs "rule" "depth" ltac:(discriminate)) as [F1 C1]. destruct (without_field kvs "rule" "age_gap" ltac:(discriminate)) as [F2 C2].
    rewrite F1, F2, C1, C2. destruct (Nat.leb (count_field kvs "rule") 1); cbn [andb]; [|reflexivity].
    destruct (find_field kvs "rule") as [[]|]; try (destruct (_ && _); reflexivity).
    destruct (Nat.leb (count_field kvs "depth") 1); cbn [andb]; [|destruct (String.eqb _ _); reflexivity].
    destruct (Nat.leb (count_field kvs "age_gap") 1); cbn [andb]; [|destruct (String.eqb _ _); reflexivity]. reflexivity.
Qed.
Lemma rule_doc j r :
  rule_of_json j = Some r <->
  document rule_names false [JStr "LongestChain"; JInt (Z.of_N (ru_depth r)); JInt (Z.of_N (ru_age_gap r))] j /\ u64 (ru_depth r) /\ u64 (ru_age_gap r).
Proof.
  rewrite rule_alt. unfold rule_three. split.
  - intros H. destruct (struct_fields _ _ _) as [[|[[]|] [|a [|b [|]]]]|] eqn:E; try discriminate. destruct (String.eqb_spec s "LongestChain") as [->|]; [|discriminate].
    reading H. injection H as <-. apply read_u64_spec in Q, Q0. destruct Q as [-> Q], Q0 as [-> Q0]. split; [apply struct_document; exact E|]. split; assumption.
  - intros (D & U & V). apply struct_document in D. rewrite D. cbn [map required]. rewrite String.eqb_refl.
    rewrite (proj2 (read_u64_spec _ _) (conj eq_refl U)), (proj2 (read_u64_spec _ _) (conj eq_refl V)). cbn. destruct r; reflexivity.
Qed.

(** ** order of fields *)
Lemma respects_u32 : respects read_u32. Proof. intros j j' []; reflexivity. Qed.
Lemma respects_era : respects era_of_json.
Proof.
  intros j j' R. unfold era_of_json. fields era_names false j j' R.
  repeat match goal with H : option_Forall2 _ ?o _ |- _ => rewrite (required_rel _ _ _ respects_u64 H); clear H end. reflexivity.
Qed.
Lemma respects_thermostat : respects thermostat_of_json.
Proof.
  intros j j' R. unfold thermostat_of_json. fields thermostat_names true j j' R.
  repeat match goal with H : option_Forall2 _ ?o _ |- _ => rewrite ?(required_rel _ _ _ respects_u64 H), ?(required_rel _ _ _ respects_value H), ?(required_rel _ _ _ respects_string H); clear H end. reflexivity.
Qed.
Lemma respects_custom : respects custom_of_json.
Proof.
  intros j j' R. unfold custom_of_json. fields custom_names true j j' R.
  repeat match goal with H : option_Forall2 _ ?o _ |- _ => rewrite ?(required_rel _ _ _ respects_u32 H), ?(required_rel _ _ _ respects_u8 H), ?(required_rel _ _ _ respects_string H); clear H end. reflexivity.
Qed.
Lemma respects_net : respects net_of_json.
Proof.
  intros j j' R. destruct R as [| | | | |l l' F|l m l' ND F P]; try reflexivity.
  assert (reordered (JObj l) (JObj l')) as R by (econstructor; eassumption). unfold net_of_json.
  destruct (tagged_reordered _ _ R) as [[k v] [k' v'] [K H]|]; [|reflexivity].
  cbn in K, H. subst. destruct (String.eqb k' "testnet"); [destruct H; reflexivity|]. destruct (String.eqb k' "mainnet"); [destruct H; reflexivity|].
  destruct (String.eqb k' "custom"); [|reflexivity]. apply respects_custom, H.
Qed.
Lemma respects_rule : respects rule_of_json.
Proof.
  intros j j' R. rewrite !rule_alt. unfold rule_three. destruct (struct_fields_reordered rule_names false j j' R) as [l l' Q|]; [|reflexivity].
  destruct Q as [|o o' l l' Ho Q]; [reflexivity|]. destruct Ho as [x y Ro|]; [|reflexivity]. destruct Ro as [| | | |s| |]; try reflexivity.
  destruct Q as [|a a' l l' A Q]; [reflexivity|]. destruct Q as [|b b' l l' B Q]; [reflexivity|]. destruct Q as [|c c' l l' C Q]; [|reflexivity].
  rewrite (required_rel _ _ _ respects_u64 A), (required_rel _ _ _ respects_u64 B). reflexivity.
Qed.
