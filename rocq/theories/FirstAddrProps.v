(** Property C58: the tool's verdict is about the first address of the key, and about what the server said of it. *)
From Coq Require Import NArith ZArith Ascii String Lia.
From stdpp Require Import prelude numbers strings list.
From Verif Require Import UtilModel JsonModel JsonSpec JsonProofs FirstAddrModel FirstAddrSpec.
Open Scope N_scope.

Lemma filter_absent (kvs : list (string * json)) n : n ∉ map fst kvs -> List.filter (fun kv => String.eqb (fst kv) n) kvs = [].
Proof.
  induction kvs as [|[k v] kvs IH]; [reflexivity|]. cbn. rewrite not_elem_of_cons. intros [D H]. destruct (String.eqb_spec k n); [congruence|]. apply IH, H.
Qed.
Lemma filter_content (kvs : list (string * json)) n l v : List.filter (fun kv => String.eqb (fst kv) n) kvs = l ++ [(n, v)] -> content kvs n v.
Proof.
  revert l. induction kvs as [|[k w] kvs IH]; intros l E; [destruct l; discriminate|]. cbn in E. destruct (String.eqb_spec k n) as [->|D].
  - destruct l as [|x l].
    + injection E as -> E. exists [], kvs. split; [reflexivity|]. intro H. clear IH. induction kvs as [|[k w] kvs IH]; [inversion H|]. cbn in E, H.
      destruct (String.eqb_spec k n); [discriminate|]. apply elem_of_cons in H. destruct H as [H|H]; [congruence|]. apply IH; assumption.
    + injection E as _ E. destruct (IH _ E) as (a & b & -> & H). exists ((n, w) :: a), b. split; [reflexivity|exact H].
  - destruct (IH _ E) as (a & b & -> & H). exists ((k, w) :: a), b. split; [reflexivity|exact H].
Qed.
Lemma mapM_last {A B} (f : A -> option B) l ys y : mapM f l = Some ys -> last ys = Some y -> exists pre x, l = pre ++ [x] /\ f x = Some y.
Proof.
  intros E L. apply mapM_Some in E. rewrite last_Some in L. destruct L as [ys' ->]. apply Forall2_app_inv_r in E. destruct E as (l1 & l2 & _ & E & ->).
  inversion E as [|x z xs zs H1 H2]; subst. inversion H2; subst. eauto.
Qed.
Lemma mini_content {A} (read : json -> option A) kvs n a : mini_field read kvs n = Some a -> exists v, content kvs n v /\ read v = Some a.
Proof.
  unfold mini_field. intro H. apply bind_Some in H. destruct H as (l & E & L). destruct (mapM_last _ _ _ _ E L) as (pre & [k v] & F & R). exists v. split; [|exact R].
  assert (K : k = n). { assert (I1 : In (k, v) (List.filter (fun kv => String.eqb (fst kv) n) kvs)) by (rewrite F; apply in_or_app; right; left; reflexivity). apply filter_In in I1. destruct I1 as [_ I1]. apply String.eqb_eq in I1. exact I1. }
  subst. eapply filter_content. exact F.
Qed.
Lemma mini_once {A} (read : json -> option A) kvs n v a : once kvs n v -> read v = Some a -> mini_field read kvs n = Some a.
Proof.
  intros (x & y & -> & Hx & Hy) R. unfold mini_field. rewrite List.filter_app. cbn. rewrite String.eqb_refl, !filter_absent by assumption. cbn. rewrite R. reflexivity.
Qed.
Lemma read_strings l ss : read_list read_string (JArr l) = Some ss <-> l = map JStr ss.
Proof.
  cbn. rewrite mapM_Some. split.
  - intro F. induction F as [|x y l ss H F IH]; [reflexivity|]. destruct x; cbn in H; try discriminate. injection H as ->. cbn. f_equal. exact IH.
  - intros ->. induction ss as [|s ss IH]; constructor; [reflexivity|exact IH].
Qed.
Lemma latest_sound j h : mini_latest j = Some h -> names_block j h.
Proof.
  unfold mini_latest. destruct j as [| | | | | |kvs]; try discriminate. intro H. apply mini_content in H. destruct H as (v & C & R). unfold mini_block in R. destruct v as [| | | | | |b]; try discriminate.
  apply bind_Some in R. destruct R as (? & _ & R). apply bind_Some in R. destruct R as (h' & Hh & R). apply bind_Some in R. destruct R as (? & _ & R). apply bind_Some in R. destruct R as (? & _ & R).
  apply bind_Some in R. destruct R as (? & _ & R). injection R as ->. apply mini_content in Hh. destruct Hh as (v & Cv & R). destruct v; try discriminate. injection R as ->.
  exists kvs, b. split; [reflexivity|]. split; assumption.
Qed.
Lemma latest_complete j h : block_document j h -> mini_latest j = Some h.
Proof.
  intros (kvs & b & era & height & epoch & slot & -> & O & Oh & Oe & Og & Op & Os & B1 & B2 & B3 & B4). cbn. eapply mini_once; [exact O|]. cbn.
  assert (U : forall n, n < 2 ^ 64 -> read_u64 (JInt (Z.of_N n)) = Some n) by (intros; apply read_u64_spec; split; [reflexivity|assumption]).
  rewrite (mini_once read_u64 b "era" _ _ Oe (U _ B1)), (mini_once read_string b "hash" _ _ Oh eq_refl), (mini_once read_u64 b "height" _ _ Og (U _ B2)),
    (mini_once read_u64 b "epoch" _ _ Op (U _ B3)), (mini_once read_u64 b "slot" _ _ Os (U _ B4)). reflexivity.
Qed.
Lemma used_sound j l : mini_used j = Some l -> lists_used j l.
Proof.
  unfold mini_used. destruct j as [| | | | | |kvs]; try discriminate. intro H. apply mini_content in H. destruct H as (v & C & R). destruct v as [| | | | |xs|]; try discriminate.
  apply read_strings in R. subst. exists kvs. split; [reflexivity|exact C].
Qed.
Lemma used_complete j l : used_document j l -> mini_used j = Some l.
Proof. intros (kvs & -> & O). cbn. eapply mini_once; [exact O|]. apply read_strings. reflexivity. Qed.

Section props.
  Context {K : Type} (from_bytes : string -> option K) (derive : K -> N -> option K) (base_address : N -> K -> K -> string).
  Variables (parse_json : string -> option json) (server : list request -> request -> option answer).
  Notation program := (first_address from_bytes derive base_address parse_json server).

  (** the address that the tool is about: spending key at 0/0, staking key at 2/0 of the given key, on the given network *)
  Definition the_address (public_key network address : string) : Prop :=
    exists id bytes root spending staking,
      (network = "mainnet"%string /\ id = 1 \/ network = "testnet"%string /\ id = 0) /\
      hex_decode public_key = Some bytes /\ from_bytes bytes = Some root /\
      at_path derive root [0; 0] = Some spending /\ at_path derive root [2; 0] = Some staking /\
      address = base_address id spending staking.

  Lemma network_spec s n : network_id s = Some n <-> (s = "mainnet"%string /\ n = 1 \/ s = "testnet"%string /\ n = 0).
  Proof.
    unfold network_id. destruct (String.eqb_spec s "mainnet") as [->|A]; [split; [intros [= <-]; auto|intros [[_ ->]|[? _]]; [reflexivity|discriminate]]|].
    destruct (String.eqb_spec s "testnet") as [->|B]; [split; [intros [= <-]; auto|intros [[? _]|[_ ->]]; [discriminate|reflexivity]]|].
    split; [discriminate|intros [[? _]|[? _]]; contradiction].
  Qed.
  Lemma network_text_spec s n : network_id s = Some n -> network_text n = s.
  Proof. rewrite network_spec. intros [[-> ->]|[-> ->]]; reflexivity. Qed.
  Lemma keys_spec pk a b : keys_of from_bytes derive pk = Some (a, b) <->
    exists bytes root, hex_decode pk = Some bytes /\ from_bytes bytes = Some root /\ at_path derive root [0; 0] = Some a /\ at_path derive root [2; 0] = Some b.
  Proof.
    unfold keys_of, CHIMERIC_ACCOUNT_DERIVATION, STAKING_KEY_INDEX, EXTERNAL. cbn [at_path]. split.
    - intro H. apply bind_Some in H. destruct H as (bytes & Hb & H). apply bind_Some in H. destruct H as (root & Hr & H). apply bind_Some in H. destruct H as (acc & Ha & H).
      apply bind_Some in H. destruct H as (st & Hs & H). apply bind_Some in H. destruct H as (ext & He & H). apply bind_Some in H. destruct H as (sp & Hp & H). injection H as <- <-.
      exists bytes, root. rewrite Ha, Hs, He, Hp. auto.
    - intros (bytes & root & -> & Hr & A & B). cbn. rewrite Hr. cbn. destruct (derive root 2) as [acc|]; [|discriminate]. cbn. destruct (derive acc 0); [|discriminate]. injection B as ->. cbn.
      destruct (derive root 0) as [ext|]; [|discriminate]. cbn. destruct (derive ext 0); [|discriminate]. injection A as ->. reflexivity.
  Qed.
  Lemma url_eq s p : ((("https://gate.flint-wallet.com/" ++ s ++ "/carp")%string) ++ p)%string = host s p.
  Proof. unfold host. apply text_of_inj. rewrite !text_of_app, <- !app_assoc. reflexivity. Qed.

  (** One description of everything the tool does for a key and a network that it accepts. *)
  Definition answered (req : list request) (r : request) (j : json) (check : bool) : Prop :=
    exists status text, server req r = Some (Answer status (Some text)) /\ parse_json text = Some j /\ (check = true -> 200 <= status < 300).

  (** A verdict is always about the right address, the block that the server calls the latest, and the server's answer to exactly that
      question. *)
  Theorem C58_verdict : forall pk network rs lines, program pk network = Run rs lines Done ->
    exists address hash addresses j1 j2,
      the_address pk network address /\
      rs = [ask_latest network; ask_used network address hash] /\
      answered [] (ask_latest network) j1 false /\ names_block j1 hash /\
      answered [ask_latest network] (ask_used network address hash) j2 true /\ lists_used j2 addresses /\
      lines = [announce address; verdict (negb (bool_decide (addresses = [])))].
  Proof.
    intros pk network rs lines H. unfold first_address in H. destruct (network_id network) as [n|] eqn:En; [|discriminate].
    rewrite (network_text_spec _ _ En), !url_eq in H. destruct (keys_of from_bytes derive pk) as [[sp st]|] eqn:Ek; [|discriminate].
    fold (ask_latest network) in H. destruct (server [] (ask_latest network)) as [[s1 t1]|] eqn:E1; [|discriminate]. cbn [a_text] in H.
    destruct t1 as [t1|]; [|discriminate]. cbn [mbind option_bind] in H. destruct (parse_json t1) as [j1|] eqn:P1; [|discriminate]. cbn in H.
    destruct (mini_latest j1) as [hash|] eqn:L; [|discriminate]. fold (ask_used network (base_address n sp st) hash) in H.
    destruct (server [ask_latest network] _) as [[s2 t2]|] eqn:E2; [|discriminate]. cbn [a_status a_text] in H.
    destruct (is_success s2) eqn:Su; [|discriminate]. destruct t2 as [t2|]; [|discriminate]. destruct (parse_json t2) as [j2|] eqn:P2; [|discriminate]. cbn in H.
    destruct (mini_used j2) as [l|] eqn:U; [|discriminate].
    exists (base_address n sp st), hash, l, j1, j2.
    apply keys_spec in Ek. destruct Ek as (bytes & root & A & B & C & D). apply network_spec in En.
    split; [exists n, bytes, root, sp, st; auto 10|].
    unfold is_success in Su. apply andb_true_iff in Su. destruct Su as [Su1 Su2]. apply N.leb_le in Su1. apply N.ltb_lt in Su2.
    assert (G1 : answered [] (ask_latest network) j1 false) by (exists s1, t1; split; [exact E1|]; split; [exact P1|discriminate]).
    assert (G2 : answered [ask_latest network] (ask_used network (base_address n sp st) hash) j2 true) by (exists s2, t2; split; [exact E2|]; split; [exact P2|lia]).
    destruct l; injection H as <- <-; (split; [reflexivity|]; split; [exact G1|]; split; [apply latest_sound, L|]; split; [exact G2|]; split; [apply used_sound, U|reflexivity]).
  Qed.

  (** When the server does answer both questions, there is a verdict, and it is the server's. *)
  Theorem C58_complete : forall pk network address hash addresses j1 j2,
    the_address pk network address ->
    answered [] (ask_latest network) j1 false -> block_document j1 hash ->
    answered [ask_latest network] (ask_used network address hash) j2 true -> used_document j2 addresses ->
    program pk network = Run [ask_latest network; ask_used network address hash] [announce address; verdict (negb (bool_decide (addresses = [])))] Done.
  Proof.
    intros pk network address hash addresses j1 j2 (id & bytes & root & sp & st & N & H & F & A & B & ->) (s1 & t1 & E1 & P1 & _) D1 (s2 & t2 & E2 & P2 & Su) D2.
    apply network_spec in N. assert (Ek : keys_of from_bytes derive pk = Some (sp, st)) by (apply keys_spec; eauto 10).
    unfold first_address. rewrite N, (network_text_spec _ _ N), Ek, !url_eq. fold (ask_latest network). rewrite E1. cbn [a_text mbind option_bind]. rewrite P1. cbn.
    rewrite (latest_complete _ _ D1). fold (ask_used network (base_address id sp st) hash). rewrite E2. cbn [a_status a_text].
    replace (is_success s2) with true by (symmetry; unfold is_success; apply andb_true_iff; rewrite N.leb_le, N.ltb_lt; apply Su; reflexivity).
    rewrite P2. cbn. rewrite (used_complete _ _ D2). destruct addresses; reflexivity.
  Qed.

  (** In every other run nothing but the address is printed, and no other question is asked. *)
  Theorem C58_no_other_output : forall pk network, let r := program pk network in
    run_outcome r <> Done ->
    (run_requests r = [] /\ run_lines r = [] /\ ~ (exists address, the_address pk network address)) \/
    (exists address, the_address pk network address /\ run_lines r = [announce address] /\
       (run_requests r = [ask_latest network] \/ exists hash, run_requests r = [ask_latest network; ask_used network address hash])).
  Proof.
    intros pk network r. unfold r, first_address. destruct (network_id network) as [n|] eqn:En.
    2: { intros _. left. split; [reflexivity|]. split; [reflexivity|]. intros (a & id & ? & ? & ? & ? & N & _). apply network_spec in N. congruence. }
    rewrite (network_text_spec _ _ En), !url_eq. destruct (keys_of from_bytes derive pk) as [[sp st]|] eqn:Ek.
    2: { intros _. left. split; [reflexivity|]. split; [reflexivity|]. intros (a & id & bytes & root & x & y & N & H & F & A & B & _).
         assert (Q : keys_of from_bytes derive pk = Some (x, y)) by (apply keys_spec; eauto 10). congruence. }
    assert (TA : the_address pk network (base_address n sp st)).
    { apply keys_spec in Ek. destruct Ek as (bytes & root & A & B & C & D). apply network_spec in En. exists n, bytes, root, sp, st. auto 10. }
    fold (ask_latest network). intro O. right. exists (base_address n sp st). split; [exact TA|]. revert O.
    destruct (server [] (ask_latest network)) as [latest|]; [|intros _; split; [reflexivity|left; reflexivity]].
    destruct (_ ← _; _) as [hash|]; [|intros _; split; [reflexivity|left; reflexivity]]. fold (ask_used network (base_address n sp st) hash).
    destruct (server [ask_latest network] _) as [result|]; [|intros _; split; [reflexivity|right; eauto]].
    destruct (is_success _); [|intros _; split; [reflexivity|right; eauto]]. destruct (a_text result); [|intros _; split; [reflexivity|right; eauto]].
    destruct (_ ← _; _) as [[|]|]; intro O; [elim O; reflexivity|elim O; reflexivity|split; [reflexivity|right; eauto]].
  Qed.
End props.

(** ** The hypotheses are met; and what the tool does not check *)
Definition ex_derive (k : list N) (i : N) : option (list N) := if i <? 2 ^ 31 then Some (k ++ [i]) else None.
Definition ex_address (n : N) (a b : list N) : string := if n =? 1 then "addr1xyz" else "addr_test1xyz".
Definition ex_block : json := JObj [("block", JObj [("hash", JStr "b1"); ("era", JInt 6); ("height", JInt 100); ("epoch", JInt 5); ("slot", JInt 1000); ("extra", JNull)])]%string.
Definition ex_parse (s : string) : option json :=
  if String.eqb s "latest" then Some ex_block else if String.eqb s "none" then Some (JObj [("addresses", JArr [])]%string)
  else if String.eqb s "one" then Some (JObj [("addresses", JArr [JStr "addr1xyz"])]%string) else None.
Definition ex_server (status1 status2 : N) (body2 : option string) (before : list request) (r : request) : option answer :=
  match before with [] => Some (Answer status1 (Some "latest"%string)) | _ => Some (Answer status2 body2) end.
Definition ex_run (status1 status2 : N) (body2 : option string) := first_address (fun _ => Some []) ex_derive ex_address ex_parse (ex_server status1 status2 body2) "00ff" "mainnet".
Example C58_used : ex_run 200 200 (Some "one"%string) = Run [ask_latest "mainnet"; ask_used "mainnet" "addr1xyz" "b1"] [announce "addr1xyz"; verdict true] Done.
Proof. reflexivity. Qed.
Example C58_unused : ex_run 200 200 (Some "none"%string) = Run [ask_latest "mainnet"; ask_used "mainnet" "addr1xyz" "b1"] [announce "addr1xyz"; verdict false] Done.
Proof. reflexivity. Qed.
Example C58_refused : ex_run 200 404 (Some "none"%string) = Run [ask_latest "mainnet"; ask_used "mainnet" "addr1xyz" "b1"] [announce "addr1xyz"] Failed.
Proof. reflexivity. Qed.
Example C58_documents : block_document ex_block "b1" /\ used_document (JObj [("addresses", JArr [JStr "addr1xyz"])]%string) ["addr1xyz"%string].
Proof.
  split.
  - assert (O : forall (kvs : list (string * json)) a n v b, kvs = a ++ (n, v) :: b -> forallb (fun kv => negb (String.eqb (fst kv) n)) (a ++ b) = true -> once kvs n v).
    { intros kvs a n v b -> H. exists a, b. rewrite forallb_app in H. apply andb_true_iff in H. destruct H as [Ha Hb]. split; [reflexivity|].
      assert (Q : forall l : list (string * json), forallb (fun kv => negb (String.eqb (fst kv) n)) l = true -> n ∉ map fst l).
      { induction l as [|[k w] l IH]; intros F I1; [inversion I1|]. cbn in F. apply andb_true_iff in F. destruct F as [F1 F2]. apply elem_of_cons in I1. destruct I1 as [->|I1]; [rewrite String.eqb_refl in F1; discriminate|]. apply IH; assumption. }
      split; apply Q; assumption. }
    eexists _, _, 6, 100, 5, 1000. split; [reflexivity|]. split; [apply (O _ [] _ _ []); reflexivity|].
    split; [apply (O _ [] _ _ _ eq_refl); reflexivity|].
    split; [apply (O _ [("hash", JStr "b1")]%string _ _ _ eq_refl); reflexivity|].
    split; [apply (O _ [("hash", JStr "b1"); ("era", JInt 6)]%string _ _ _ eq_refl); reflexivity|].
    split; [apply (O _ [("hash", JStr "b1"); ("era", JInt 6); ("height", JInt 100)]%string _ _ _ eq_refl); reflexivity|].
    split; [apply (O _ [("hash", JStr "b1"); ("era", JInt 6); ("height", JInt 100); ("epoch", JInt 5)]%string _ _ _ eq_refl); reflexivity|]. repeat split.
  - exists [("addresses", JArr [JStr "addr1xyz"])]%string. split; [reflexivity|]. exists [], []. split; [reflexivity|]. split; intro H; inversion H.
Qed.
(** the status of the first answer is not looked at: an error page that reads like a block is taken for the latest block *)
Theorem C58_first_status_refuted : exists (server : list request -> request -> option answer) lines, (forall r a, server [] r = Some a -> a_status a = 500) /\
  exists rs, first_address (fun _ => Some []) ex_derive ex_address ex_parse server "00ff" "mainnet" = Run rs lines Done.
Proof. exists (ex_server 500 200 (Some "none"%string)). eexists. split; [intros r a [= <-]; reflexivity|]. eexists. reflexivity. Qed.
(** a second answer whose body cannot be read makes the program panic instead of returning an error *)
Theorem C58_no_panic_refuted : exists (server : list request -> request -> option answer), run_outcome (first_address (fun _ => Some []) ex_derive ex_address ex_parse server "00ff" "mainnet") = Panicked.
Proof. exists (ex_server 200 200 None). reflexivity. Qed.

Definition all_FirstAddrProps := (@C58_verdict, @C58_complete, @C58_no_other_output, @C58_first_status_refuted, @C58_no_panic_refuted).
Print Assumptions all_FirstAddrProps.
