(** Property C57: the second block fetcher prints every block that its source sends, and its output tells the node's chain. *)
From Coq Require Import NArith ZArith Ascii String Lia.
From stdpp Require Import prelude numbers strings list.
From Verif Require Import ValueModel JsonModel JsonSpec JsonProofs FetchModel FetchProps OuraModel OuraSpec.
Open Scope N_scope.

(** ** what is printed *)
Lemma sent_app a b : sent (a ++ b) = sent a ++ sent b.
Proof. apply omap_app. Qed.
Lemma sent_filter passes evs : (forall b, passes (EvBlock b) = true) -> sent (List.filter passes evs) = sent evs.
Proof.
  intro H. induction evs as [|e evs IH]; [reflexivity|]. cbn [List.filter]. destruct e as [b| |]; [rewrite H; cbn; f_equal; exact IH|..]; destruct (passes _); exact IH.
Qed.
Lemma print_ok evs : with_cbor evs -> says (fst (print_events evs)) (sent evs) /\ snd (print_events evs) = false.
Proof.
  unfold with_cbor. induction evs as [|e evs IH]; [intros _; split; constructor|]. destruct e as [b| |]; [|exact IH..].
  change (sent (EvBlock b :: evs)) with (b :: sent evs). rewrite Forall_cons. intros [[c C] F]. destruct (IH F) as [A B]. cbn [print_events]. rewrite C.
  destruct (print_events evs). cbn in *. split; [|exact B]. constructor; [exists c; split; [exact C|reflexivity]|exact A].
Qed.
Lemma print_split evs : exists pre post, evs = pre ++ post /\ with_cbor pre /\ says (fst (print_events evs)) (sent pre) /\
  (if snd (print_events evs) then exists b post', post = EvBlock b :: post' /\ ob_cbor b = None else post = []).
Proof.
  induction evs as [|e evs IH]; [exists [], []; repeat split; constructor|]. destruct IH as (pre & post & -> & W & S & E).
  destruct e as [b| |].
  - cbn [print_events]. destruct (ob_cbor b) as [c|] eqn:C.
    + exists (EvBlock b :: pre), post. split; [reflexivity|]. destruct (print_events (pre ++ post)) as [ls f]. cbn [fst snd] in *.
      split; [constructor; [exists c; exact C|exact W]|]. split; [|exact E]. change (sent (EvBlock b :: pre)) with (b :: sent pre). constructor; [exists c; split; [exact C|reflexivity]|exact S].
    + exists [], (EvBlock b :: pre ++ post). split; [reflexivity|]. split; [constructor|]. split; [constructor|]. cbn. eauto.
  - exists (EvRollback slot hash :: pre), post. split; [reflexivity|]. split; [exact W|]. split; [exact S|exact E].
  - exists (EvOther name :: pre), post. split; [reflexivity|]. split; [exact W|]. split; [exact S|exact E].
Qed.

Section props.
  Variable passes : oevent -> bool.
  (** the filter lets the events of blocks through; nothing is asked for the others *)
  Hypothesis blocks_pass : forall b, passes (EvBlock b) = true.

  (** The output is one line for each block that was sent, in the order of their arrival, up to the first one without its bytes; the
      program stops with an error exactly there. *)
  Theorem C57_prints : forall evs lines failed, oura_fetch passes evs = (lines, failed) ->
    exists bs rest, sent evs = bs ++ rest /\ says lines bs /\ (if failed then exists b rest', rest = b :: rest' /\ ob_cbor b = None else rest = []).
  Proof.
    intros evs lines failed E. unfold oura_fetch in E. destruct (print_split (List.filter passes evs)) as (pre & post & Ep & W & S & F). rewrite E in S, F. cbn in S, F.
    exists (sent pre), (sent post). rewrite <- sent_app, <- Ep. split; [symmetry; apply sent_filter; exact blocks_pass|]. split; [exact S|].
    destruct failed; [|subst; reflexivity]. destruct F as (b & post' & -> & C). exists b, (sent post'). split; [reflexivity|exact C].
  Qed.
  Theorem C57_no_error : forall evs, with_cbor evs -> snd (oura_fetch passes evs) = false /\ says (fst (oura_fetch passes evs)) (sent evs).
  Proof.
    intros evs W. unfold oura_fetch. rewrite <- (sent_filter passes evs blocks_pass). unfold with_cbor in W. rewrite <- (sent_filter passes evs blocks_pass) in W. destruct (print_ok _ W). tauto.
  Qed.
  (** What was printed stays printed when more events arrive. *)
  Theorem C57_prefix : forall evs more, fst (oura_fetch passes evs) `prefix_of` fst (oura_fetch passes (evs ++ more)).
  Proof.
    intros. unfold oura_fetch. rewrite List.filter_app. generalize (List.filter passes more). intro m. induction (List.filter passes evs) as [|e l IH]; [exists (fst (print_events m)); reflexivity|].
    cbn [app print_events]. destruct e as [b| |]; [|exact IH..]. destruct (ob_cbor b); [|exists []; reflexivity].
    destruct (print_events l), (print_events (l ++ m)). cbn in *. apply prefix_cons. exact IH.
  Qed.
End props.

(** ** what the output tells about the node's chain *)
Lemma numbered_app n0 c b : numbered n0 c -> follows n0 c b -> numbered n0 (c ++ [b]).
Proof.
  intros N F i x L. destruct (decide (i < length c)%nat) as [I|I].
  - rewrite lookup_app_l in L by exact I. apply N, L.
  - rewrite lookup_app_r in L by lia. apply list_lookup_singleton_Some in L. destruct L as [I' <-]. rewrite F. f_equal. f_equal. lia.
Qed.
Lemma numbered_prefix n0 c d : numbered n0 (c ++ d) -> numbered n0 c.
Proof. intros N i x L. apply N. apply lookup_app_l_Some. exact L. Qed.
Lemma adopt_prefix n0 c d b : numbered n0 (c ++ d) -> follows n0 c b -> adopt (c ++ d) b = c ++ [b].
Proof.
  intros N F. unfold adopt. f_equal. rewrite List.filter_app. unfold follows in F.
  assert (A : List.filter (fun x => ob_number x <? ob_number b) c = c).
  { assert (Q : forall x, x ∈ c -> (ob_number x <? ob_number b) = true).
    { intros x X. apply elem_of_list_lookup in X. destruct X as [i X]. apply N.ltb_lt. rewrite (N i x) by (apply lookup_app_l_Some; exact X). apply lookup_lt_Some in X. lia. }
    clear - Q. induction c as [|x c IH]; [reflexivity|]. cbn. rewrite Q by left. rewrite IH by (intros y Y; apply Q; right; exact Y). reflexivity. }
  assert (B : List.filter (fun x => ob_number x <? ob_number b) d = []).
  { assert (Q : forall x, x ∈ d -> (ob_number x <? ob_number b) = false).
    { intros x X. apply elem_of_list_lookup in X. destruct X as [i X]. apply N.ltb_ge. rewrite (N (length c + i)%nat x) by (rewrite lookup_app_r by lia; replace (length c + i - length c)%nat with i by lia; exact X). lia. }
    clear - Q. induction d as [|x d IH]; [reflexivity|]. cbn. rewrite Q by left. apply IH. intros y Y; apply Q; right; exact Y. }
  rewrite A, B, app_nil_r. reflexivity.
Qed.
Lemma history_follow n0 c0 evs c : numbered n0 c0 -> history n0 c0 evs c ->
  exists d, follow c0 (sent evs) = c ++ d /\ numbered n0 (c ++ d) /\ (forall evs' b, evs = evs' ++ [EvBlock b] -> d = []).
Proof.
  intros N H. induction H as [|evs c' b H IH F|evs c' slot hash c'' H IH K|evs c' name H IH].
  - exists []. rewrite app_nil_r. split; [reflexivity|]. split; [exact N|]. intros e b E. destruct e; discriminate.
  - destruct IH as (d & E & M & _). exists []. rewrite app_nil_r, sent_app. unfold follow. rewrite fold_left_app. fold (follow c0 (sent evs)). cbn [sent omap list_omap fold_left].
    rewrite E, (adopt_prefix n0) by assumption. split; [reflexivity|]. split; [|reflexivity]. apply numbered_app; [eapply numbered_prefix; exact M|exact F].
  - destruct IH as (d & E & M & _). destruct K as (post & -> & _). exists (post ++ d). rewrite sent_app. cbn [sent omap list_omap]. rewrite app_nil_r, E, app_assoc.
    split; [reflexivity|]. split; [exact M|]. intros e b Q. apply app_inj_tail in Q. destruct Q as [_ Q]. discriminate.
  - destruct IH as (d & E & M & _). exists d. rewrite sent_app. cbn [sent omap list_omap]. rewrite app_nil_r.
    split; [exact E|]. split; [exact M|]. intros e b Q. apply app_inj_tail in Q. destruct Q as [_ Q]. discriminate.
Qed.

(** Reading the printed blocks in order, each in the place that its number says, gives the chain of the node whenever the last event
    was a block; in between it gives that chain and perhaps some blocks that were just rolled back. *)
Theorem C57_output_tells_chain : forall n0 c0 evs c, numbered n0 c0 -> history n0 c0 evs c ->
  c `prefix_of` follow c0 (sent evs) /\ (forall evs' b, evs = evs' ++ [EvBlock b] -> follow c0 (sent evs) = c).
Proof.
  intros n0 c0 evs c N H. destruct (history_follow n0 c0 evs c N H) as (d & E & _ & D). split; [exists d; exact E|].
  intros e b Q. rewrite E, (D _ _ Q), app_nil_r. reflexivity.
Qed.
(** The chain of the node is among the blocks that were printed. *)
Theorem C57_chain_printed : forall n0 c0 evs c, history n0 c0 evs c -> c `sublist_of` c0 ++ sent evs.
Proof.
  intros n0 c0 evs c H. induction H as [|evs c' b H IH F|evs c' slot hash c'' H IH K|evs c' name H IH]; rewrite ?sent_app; cbn [sent omap list_omap].
  - rewrite app_nil_r. reflexivity.
  - rewrite app_assoc. apply sublist_app; [exact IH|reflexivity].
  - rewrite app_nil_r. destruct K as (post & -> & _). etransitivity; [|exact IH]. apply sublist_inserts_r. reflexivity.
  - rewrite app_nil_r. exact IH.
Qed.
(** Without rollbacks it is exactly what was printed. *)
Theorem C57_no_rollback : forall n0 c0 evs c, history n0 c0 evs c -> (forall slot hash, EvRollback slot hash ∉ evs) -> c = c0 ++ sent evs.
Proof.
  intros n0 c0 evs c H. induction H as [|evs c' b H IH F|evs c' slot hash c'' H IH K|evs c' name H IH]; intro NR; rewrite ?sent_app; cbn [sent omap list_omap].
  - rewrite app_nil_r. reflexivity.
  - rewrite app_assoc, <- IH; [reflexivity|]. intros s h Q. apply (NR s h), elem_of_app. left. exact Q.
  - exfalso. apply (NR slot hash), elem_of_app. right. left.
  - rewrite app_nil_r. apply IH. intros s h Q. apply (NR s h), elem_of_app. left. exact Q.
Qed.

(** A line says everything that the program knows about a block. *)
Definition plain (b : oblock) : Prop := exists c, ob_cbor b = Some c /\ at_free (text_of c).
Lemma oline_inj a b c d : at_free (text_of c) -> at_free (text_of d) -> oline a c = oline b d -> ob_number a = ob_number b /\ ob_hash a = ob_hash b /\ ob_slot a = ob_slot b /\ c = d.
Proof.
  intros Fc Fd. unfold oline. intro E. apply app_prefix_inv in E. apply (f_equal text_of) in E. rewrite !(text_of_app (display_u64 _)) in E.
  apply first_at in E as [E1 E]; [|apply display_comma_free..]. apply text_of_inj, display_inj in E1.
  apply (app_inv_head (text_of " point: ")) in E. rewrite !(text_of_app (ob_hash _)) in E.
  assert (K : forall x c, at_free (text_of c) -> at_free (text_of (display_u64 x ++ ", raw cbor hex: " ++ c)%string)).
  { intros x c' F. rewrite !text_of_app. apply Forall_app; split; [apply display_at_free|]. apply Forall_app; split; [|exact F]. repeat constructor; discriminate. }
  apply last_at in E as [E2 E]; [|apply K; assumption..]. apply text_of_inj in E2. apply text_of_inj in E. apply (f_equal text_of) in E. rewrite !(text_of_app (display_u64 _)) in E.
  apply first_at in E as [E3 E]; [|apply display_comma_free..]. apply text_of_inj, display_inj in E3.
  apply (app_inv_head (text_of " raw cbor hex: ")) in E. apply text_of_inj in E. auto.
Qed.
Lemma says_inj lines bs bs' : Forall plain bs -> Forall plain bs' -> says lines bs -> says lines bs' -> bs = bs'.
Proof.
  intros F F' S. revert bs' F F'. induction S as [|l b lines bs (c & C & L) S IH]; intros bs' F F' S'; inversion S' as [|l' b' lines' bs2 (c' & C' & L') S2]; subst; [reflexivity|].
  apply Forall_cons in F, F'. destruct F as [(x & X & Fx) F], F' as [(y & Y & Fy) F']. replace x with c in * by congruence. replace y with c' in * by congruence.
  f_equal; [|apply IH; assumption]. destruct (oline_inj b b' c c' Fx Fy L') as (A & B & D & G). destruct b, b'. cbn in *. congruence.
Qed.
(** Two histories from the same chain that give the same output and have just sent a block have the same chain. *)
Theorem C57_output_determines_chain : forall passes, (forall b, passes (EvBlock b) = true) -> forall n0 c0 evs b evs' b' c c',
  numbered n0 c0 -> history n0 c0 (evs ++ [EvBlock b]) c -> history n0 c0 (evs' ++ [EvBlock b']) c' ->
  Forall plain (sent (evs ++ [EvBlock b])) -> Forall plain (sent (evs' ++ [EvBlock b'])) ->
  oura_fetch passes (evs ++ [EvBlock b]) = oura_fetch passes (evs' ++ [EvBlock b']) -> c = c'.
Proof.
  intros passes BP n0 c0 evs b evs' b' c c' N H H' F F' E.
  assert (W : forall evs, Forall plain (sent evs) -> with_cbor evs). { intros e Fe. eapply Forall_impl; [exact Fe|]. intros x (y & Y & _). eauto. }
  destruct (C57_no_error passes BP _ (W _ F)) as [_ S]. destruct (C57_no_error passes BP _ (W _ F')) as [_ S']. rewrite E in S.
  assert (Q := says_inj _ _ _ F F' S S').
  rewrite <- (proj2 (C57_output_tells_chain _ _ _ _ N H) _ _ eq_refl), <- (proj2 (C57_output_tells_chain _ _ _ _ N H') _ _ eq_refl), Q. reflexivity.
Qed.

(** A rollback by itself leaves no trace: the same output, with and without it, although the chain is another one. *)
Definition ob (n : N) (h : string) : oblock := OBlock n (10 * n) h (Some h).
Theorem C57_rollback_refuted : exists evs evs' c c' : _, forall passes, (forall b, passes (EvBlock b) = true) ->
  history 0 [] evs c /\ history 0 [] evs' c' /\ oura_fetch passes evs = oura_fetch passes evs' /\ c <> c'.
Proof.
  exists [EvBlock (ob 0 "a"); EvBlock (ob 1 "b")], ([EvBlock (ob 0 "a"); EvBlock (ob 1 "b")] ++ [EvRollback 0 "a"]), [ob 0 "a"; ob 1 "b"], [ob 0 "a"].
  intros passes BP. assert (H : history 0 [] [EvBlock (ob 0 "a"); EvBlock (ob 1 "b")] [ob 0 "a"; ob 1 "b"]).
  { apply (h_block 0 [] [EvBlock (ob 0 "a")] [ob 0 "a"]); [|reflexivity]. apply (h_block 0 [] [] []); [constructor|reflexivity]. }
  split; [exact H|]. split; [eapply h_rollback; [exact H|]; exists [ob 1 "b"]; split; [reflexivity|]; right; exists [], (ob 0 "a"); repeat split|].
  split; [|discriminate]. unfold oura_fetch. rewrite List.filter_app. cbn [List.filter]. rewrite !BP. destruct (passes (EvRollback 0 "a")); reflexivity.
Qed.

(** ** the configuration of the source *)
Theorem C57_setup : forall P W parse_magic (well_known : N -> option W) sancho (parse_point : string -> option P) magic b since socket cfg,
  oura_setup parse_magic well_known sancho parse_point magic b since socket = Some cfg <->
  sc_bearer cfg = b /\ sc_address cfg = socket /\ parse_magic magic = Some (sc_magic cfg) /\
  (sc_magic cfg = 4 /\ sc_known cfg = sancho \/ sc_magic cfg <> 4 /\ well_known (sc_magic cfg) = Some (sc_known cfg)) /\
  match since, sc_intersect cfg with None, AtOrigin => True | Some t, AtPoint p => parse_point t = Some p | _, _ => False end /\
  sc_min_depth cfg = 0 /\ sc_include_transactions cfg = true /\ sc_include_cbor cfg = true.
Proof.
  intros. unfold oura_setup. split.
  - intro H. apply bind_Some in H. destruct H as (m & M & H). apply bind_Some in H. destruct H as (w & Kw & H). apply bind_Some in H. destruct H as (s & S & H). injection H as <-.
    assert (Q : m = 4 /\ w = sancho \/ m <> 4 /\ well_known m = Some w). { destruct (N.eqb_spec m 4); [left|right]; split; congruence. }
    assert (R : match since, s with None, AtOrigin => True | Some t, AtPoint p => parse_point t = Some p | _, _ => False end).
    { destruct since as [t|]; [|injection S as <-; exact Logic.I]. destruct (parse_point t) eqn:Ep; [|discriminate]. injection S as <-. reflexivity. }
    destruct b; cbn; repeat split; try assumption.
  - intros (<- & <- & M & K & S & D & T & C). destruct cfg as [b a m w s d t c]. cbn in *. subst. rewrite M. cbn.
    replace (if m =? 4 then Some sancho else well_known m) with (Some w) by (destruct (N.eqb_spec m 4); destruct K as [[? ?]|[? ?]]; congruence). cbn.
    destruct since as [x|], s as [|p]; try contradiction; [rewrite S|]; destruct b; reflexivity.
Qed.

(** ** The hypotheses are met *)
Example C57_fork : exists c, history 0 [] ([EvBlock (ob 0 "a"); EvBlock (ob 1 "b")] ++ [EvRollback 0 "a"] ++ [EvBlock (ob 1 "c")]) c /\ c = [ob 0 "a"; ob 1 "c"] /\
  oura_fetch (fun _ => true) ([EvBlock (ob 0 "a"); EvBlock (ob 1 "b")] ++ [EvRollback 0 "a"] ++ [EvBlock (ob 1 "c")]) =
    (["Block #0, point: a@0, raw cbor hex: a"; "Block #1, point: b@10, raw cbor hex: b"; "Block #1, point: c@10, raw cbor hex: c"]%string, false).
Proof.
  eexists. split; [|split; [reflexivity|reflexivity]].
  apply (h_block 0 [] [EvBlock (ob 0 "a"); EvBlock (ob 1 "b"); EvRollback 0 "a"] [ob 0 "a"]); [|reflexivity].
  apply (h_rollback 0 [] [EvBlock (ob 0 "a"); EvBlock (ob 1 "b")] [ob 0 "a"; ob 1 "b"]); [|exists [ob 1 "b"]; split; [reflexivity|]; right; exists [], (ob 0 "a"); repeat split].
  apply (h_block 0 [] [EvBlock (ob 0 "a")] [ob 0 "a"]); [|reflexivity]. apply (h_block 0 [] [] []); [constructor|reflexivity].
Qed.
Example C57_plain : Forall plain (sent [EvBlock (ob 0 "a0"); EvOther "tx"; EvBlock (ob 1 "b1")]).
Proof. repeat constructor; eexists; (split; [reflexivity|]); repeat constructor; discriminate. Qed.
Example C57_setup_works : oura_setup (fun s => if String.eqb s "preview" then Some 2 else None) (fun m => if m =? 2 then Some tt else None) tt (fun s => Some s) "preview" Tcp (Some "5,aa"%string) "node:3001" =
  Some (SourceConfig Tcp "node:3001" 2 tt (AtPoint "5,aa"%string) 0 true true).
Proof. reflexivity. Qed.

Definition all_OuraProps := (@C57_prints, @C57_no_error, @C57_prefix, @C57_output_tells_chain, @C57_chain_printed, @C57_no_rollback, @C57_output_determines_chain, @C57_rollback_refuted, @C57_setup).
Print Assumptions all_OuraProps.
