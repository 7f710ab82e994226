(** C44: random-improve. *)
From Coq Require Import ZArith Lia.
From stdpp Require Import gmap strings list sorting.
From Verif Require Import ValueModel BalanceModel StoreModel StoreSpec StoreProofs SelModel SelSpec SelProofs SelProps
  SelLargestProofs SelFewestProofs RandModel RandProofs RandSelProofs.
Open Scope Z_scope.

(** For every random stream, estimator, hash order and setup: a successful selection takes its inputs out of the
    available ones, each once, and leaves exactly the others available; the reported input covers the outputs.  When no
    two fixed outputs are equal, the reported totals and the fee are exact. *)
Theorem C44_selected {E} (est : estimator E) rnd chk sc inputs ord hord av e su before av' e' r :
  (forall l, hord l ≡ₚ l) -> NoDup av -> ri_available (inputs, av) = Some before ->
  ri_select est rnd chk sc inputs ord hord av e su = (av', SDone (e', r)) ->
  (exists after, ri_available (inputs, av') = Some after /\ se_chosen r ++ after ≡ₚ before) /\ NoDup av' /\
  su_out su <= se_in r /\ se_out r = su_out su /\ se_out_assets r = su_out_assets su /\
  se_fixed_in r = su_fixed_in su /\ se_fixed_out r = su_fixed_out su /\ se_changes r = [] /\
  (NoDup (su_fixed_out su) ->
     se_in r = su_in su + value_in (se_chosen r) /\
     (forall t, amount t (se_in_assets r) = amount t (su_in_assets su) + token_in t (se_chosen r)) /\
     exists order fee f, order ≡ₚ se_chosen r /\ e_min_fee est e = Some fee /\ charge est e order = Some (e', f) /\
       se_fee r = fee + f).
Proof.
  intros Hh N Hb H. unfold ri_available in *. cbn [fst snd] in *.
  pose proof (at_indices_bound inputs av before Hb) as B.
  pose proof (select_spec est rnd chk sc inputs ord hord av e su Hh N B) as S. rewrite H in S.
  destruct S as (chosen & billed & us & fee & f & Hf & Hc & P & Hset & Hnd & Hus & Hch & Hr & Hle).
  assert (P' := P). symmetry in P'. destruct (at_indices_perm inputs _ _ P' before Hb) as (all & Hall & Q).
  assert (B' : forall i, i ∈ av' -> (i < length inputs)%nat).
  { intros i Hi. apply B. rewrite <- P. apply elem_of_app. by right. }
  destruct (at_indices_some inputs av' B') as [aft Ha].
  pose proof (at_indices_app inputs _ _ _ _ Hc Ha) as Happ. rewrite Hall in Happ. injection Happ as ->.
  split; [exists aft; split; [done|by symmetry]|].
  split. { rewrite <- P in N. by apply NoDup_app_r in N. }
  rewrite Hr. cbn [se_in se_out se_out_assets se_fixed_in se_fixed_out se_changes se_chosen se_in_assets se_fee].
  do 6 (split; [done|]). intro Nf.
  destruct (at_indices_perm inputs _ _ (Hnd Nf) us Hus) as (us' & Hus' & Pus). rewrite Hc in Hus'. injection Hus' as <-.
  split. { f_equal. unfold value_in. by apply sumZ_perm, Permutation_map. }
  split.
  { intro t. rewrite amount_add_assets, held_flat. f_equal. unfold token_in. by apply sumZ_perm, Permutation_map. }
  exists us, fee, f. done.
Qed.

(** Whatever a call does, short of a panic, it only takes inputs away: the state stays well-formed and nothing appears
    among the available inputs.  No call runs for ever, and none panics if the amounts fit in 64 bits (three times the
    value of each output in a build with overflow checks). *)
Theorem C44_total {E} (est : estimator E) rnd chk sc inputs ord hord av e su before :
  (forall l, hord l ≡ₚ l) -> NoDup av -> ri_available (inputs, av) = Some before ->
  let '(av', res) := ri_select est rnd chk sc inputs ord hord av e su in
  res <> SLoop /\
  (0 < sc -> (forall u, u ∈ inputs -> 0 <= u_value u / sc < 2 ^ 64) ->
   (forall o, o ∈ su_fixed_out su -> 0 <= o_value o /\ 3 * (o_value o / sc) < 2 ^ 64) ->
   (forall u, u ∈ inputs -> 0 <= u_value u) -> res <> SPanic) /\
  (res <> SPanic -> av' ⊆+ av /\ NoDup av' /\
     exists after, ri_available (inputs, av') = Some after /\ after ⊆+ before).
Proof.
  intros Hh N Hb. unfold ri_available in *. cbn [fst snd] in *.
  pose proof (at_indices_bound inputs av before Hb) as B.
  pose proof (select_spec est rnd chk sc inputs ord hord av e su Hh N B) as S.
  destruct (ri_select est rnd chk sc inputs ord hord av e su) as [av' res].
  assert (Sub : av' ⊆+ av -> av' ⊆+ av /\ NoDup av' /\ exists after, at_indices inputs av' = Some after /\ after ⊆+ before).
  { intro Hs. pose proof (submseteq_Permutation _ _ Hs) as [k Pk].
    destruct (at_indices_perm inputs _ _ Pk before Hb) as (all & Hall & Q).
    assert (B' : forall i, i ∈ av' -> (i < length inputs)%nat).
    { intros i Hi. apply B. rewrite Pk. apply elem_of_app. by left. }
    assert (Bk : forall i, i ∈ k -> (i < length inputs)%nat).
    { intros i Hi. apply B. rewrite Pk. apply elem_of_app. by right. }
    destruct (at_indices_some inputs av' B') as [aft Ha]. destruct (at_indices_some inputs k Bk) as [ks Hk].
    pose proof (at_indices_app inputs _ _ _ _ Ha Hk) as Happ. rewrite Hall in Happ. injection Happ as ->.
    split; [done|]. split. { rewrite Pk in N. by apply NoDup_app_l in N. }
    exists aft. split; [done|]. rewrite Q. apply submseteq_inserts_r. reflexivity. }
  split. { intros ->. done. }
  split.
  { intros Hs Hu Ho Hn ->. apply (S Hs). split.
    - intros u Hin. unfold to_u64. specialize (Hu u Hin). specialize (Hn u Hin).
      rewrite (proj2 (Z.ltb_ge (u_value u) 0)) by lia. rewrite (proj2 (Z.ltb_lt (u_value u / sc) (2 ^ 64))) by lia. eauto.
    - intros o Hin. destruct (Ho o Hin) as [H1 H2]. exists (o_value o / sc). unfold to_u64.
      pose proof (Z.div_pos (o_value o) sc H1 Hs).
      rewrite (proj2 (Z.ltb_ge (o_value o) 0)) by lia. rewrite (proj2 (Z.ltb_lt (o_value o / sc) (2 ^ 64))) by lia.
      split; [done|lia]. }
  intro Hp. destruct res as [[e' r]|e'| |]; try done; [|by apply Sub].
  apply Sub. destruct S as (chosen & billed & us & fee & f & _ & _ & P & _). rewrite <- P.
  apply submseteq_inserts_l. reflexivity.
Qed.

(** a new selector makes all its inputs available, once each *)
Theorem C44_new l : let '(inputs, av) := ri_new l in NoDup av /\ ri_available (inputs, av) = Some l.
Proof.
  cbn. split; [apply NoDup_seq|]. unfold ri_available. cbn [fst snd].
  assert (H : forall pre, at_indices (pre ++ l) (seq (length pre) (length l)) = Some l).
  { induction l as [|u l IH]; intro pre; [done|]. cbn [length seq at_indices].
    rewrite list_lookup_middle by done. specialize (IH (pre ++ [u])).
    rewrite <- app_assoc, app_length in IH. cbn [app length] in IH. rewrite Nat.add_1_r in IH. by rewrite IH. }
  apply (H []).
Qed.

(** ** Many selections one after the other never hand out the same input twice *)
Record call (E : Type) := Call { k_rnd : nat -> nat; k_ord : torder asset; k_hord : list nat -> list nat; k_est : E; k_setup : setup }.
Arguments k_rnd {E}. Arguments k_ord {E}. Arguments k_hord {E}. Arguments k_est {E}. Arguments k_setup {E}.
Arguments Call {E}.
(** the inputs chosen by the successful calls, and the indices available in the end; None if a call panics *)
Fixpoint ri_run {E} (est : estimator E) chk sc inputs (av : list nat) (calls : list (call E)) : option (list utxo * list nat) :=
  match calls with
  | [] => Some ([], av)
  | c :: calls =>
      match ri_select est (k_rnd c) chk sc inputs (k_ord c) (k_hord c) av (k_est c) (k_setup c) with
      | (av', SDone (_, r)) =>
          match ri_run est chk sc inputs av' calls with Some (us, av'') => Some (se_chosen r ++ us, av'') | None => None end
      | (av', SFail _) => ri_run est chk sc inputs av' calls
      | _ => None
      end
  end.
Theorem C44_never_twice {E} (est : estimator E) chk sc inputs calls : forall av before used av',
  Forall (fun c => forall l, k_hord c l ≡ₚ l) calls -> NoDup av -> ri_available (inputs, av) = Some before ->
  ri_run est chk sc inputs av calls = Some (used, av') ->
  exists after, ri_available (inputs, av') = Some after /\ used ++ after ⊆+ before.
Proof.
  induction calls as [|c calls IH]; intros av before used av' Hh N Hb H; cbn [ri_run] in H.
  { injection H as <- <-. exists before. done. }
  apply Forall_cons in Hh as [Hc Hh].
  pose proof (C44_total est (k_rnd c) chk sc inputs (k_ord c) (k_hord c) av (k_est c) (k_setup c) before Hc N Hb) as T.
  destruct (ri_select est (k_rnd c) chk sc inputs (k_ord c) (k_hord c) av (k_est c) (k_setup c)) as [av1 res] eqn:R.
  destruct T as (_ & _ & T). destruct res as [[e' r]|e'| |]; try done.
  - destruct (C44_selected _ _ _ _ _ _ _ _ _ _ _ _ _ _ Hc N Hb R) as ((aft & A1 & A2) & N1 & _).
    destruct (ri_run est chk sc inputs av1 calls) as [[us av2]|] eqn:Ru; [|done]. injection H as <- <-.
    destruct (IH av1 aft us av2 Hh N1 A1 Ru) as (fin & F1 & F2). exists fin. split; [done|].
    rewrite <- A2, <- app_assoc. by apply submseteq_skips_l.
  - destruct (T ltac:(done)) as (_ & N1 & aft & A1 & A2).
    destruct (IH av1 aft used av' Hh N1 A1 H) as (fin & F1 & F2). exists fin. split; [done|]. by rewrite F2.
Qed.

(** ** When it always succeeds *)
(** For every random stream: if no two outputs are equal, every output asks for something, the estimator accepts inputs, no
    output lists a token under the name policy:name, and the available inputs, none above M, hold at least the outputs
    plus M for each of them, then the selection succeeds. *)
Theorem C44_succeeds {E} (est : estimator E) rnd chk sc inputs ord hord av e ins outs change before M :
  let su := from_fixed ins outs change in
  fair_t ord -> (forall l, hord l ≡ₚ l) -> inputs_ok est -> NoDup av -> ri_available (inputs, av) = Some before ->
  NoDup outs -> (forall o, o ∈ outs -> 0 < o_value o) -> 0 <= value_in ins ->
  (forall t a o, su_out_assets su !! t = Some a -> o ∈ outs -> find_qty (pair_token a) (o_assets o) = None) ->
  0 <= M -> (forall u, u ∈ before -> 0 <= u_value u <= M) ->
  value_out outs + Z.of_nat (length outs) * M <= value_in before ->
  0 < sc -> (forall u, u ∈ inputs -> 0 <= u_value u /\ u_value u / sc < 2 ^ 64) ->
  (forall o, o ∈ outs -> 3 * (o_value o / sc) < 2 ^ 64) ->
  exists av' e' r, ri_select est rnd chk sc inputs ord hord av e su = (av', SDone (e', r)).
Proof.
  intros su Hord Hh Ok N Hb Nf Hpos Hins Hign H0 HM W Hs Hu Ho.
  destruct (C39_totals ins outs change) as (T1 & T2 & _ & _ & _ & _ & T5 & T6 & _).
  eapply (select_progress est rnd chk sc inputs M); try done.
  - fold su in T1, T2. rewrite T1, T2.
    assert (0 <= Z.of_nat (length outs) * M) by nia. lia.
  - split.
    + intros u Hin. destruct (Hu u Hin). unfold to_u64.
      rewrite (proj2 (Z.ltb_ge (u_value u) 0)) by lia. rewrite (proj2 (Z.ltb_lt (u_value u / sc) (2 ^ 64))) by lia. eauto.
    + intros o Hin. change (su_fixed_out su) with outs in Hin. specialize (Hpos o Hin). specialize (Ho o Hin).
      exists (o_value o / sc). unfold to_u64. pose proof (Z.div_pos (o_value o) sc ltac:(lia) Hs).
      rewrite (proj2 (Z.ltb_ge (o_value o) 0)) by lia. rewrite (proj2 (Z.ltb_lt (o_value o / sc) (2 ^ 64))) by lia.
      split; [done|lia].
Qed.

(** ** An output without main value makes every selection fail *)
Theorem C44_empty_output_fails {E} (est : estimator E) rnd chk sc inputs ord hord av e su o before :
  NoDup av -> ri_available (inputs, av) = Some before -> o ∈ su_fixed_out su -> o_value o <= 0 ->
  forall av' e' r, ri_select est rnd chk sc inputs ord hord av e su <> (av', SDone (e', r)).
Proof.
  intros N Hb Ho Hle av' e' r H.
  pose proof (select_nothing est rnd chk sc inputs ord hord av e su o N (at_indices_bound inputs av before Hb) Ho Hle) as S.
  by rewrite H in S.
Qed.

(** ** The improvement rule *)
(** With whole amounts that fit, an input is exchanged exactly when the other one is strictly closer to twice the value of
    the output and is below three times that value. *)
Theorem C44_improvement_rule chk cur new out : 0 <= cur < 2 ^ 64 -> 0 <= new < 2 ^ 64 -> 0 <= out -> 3 * out < 2 ^ 64 ->
  should_improve chk 1 cur new out = Some true <-> Z.abs (2 * out - new) < Z.abs (2 * out - cur) /\ new < 3 * out.
Proof.
  intros Hc Hn Ho H3. unfold should_improve, to_u64, mul_u64. rewrite !Z.div_1_r.
  rewrite (proj2 (Z.ltb_ge cur 0)), (proj2 (Z.ltb_ge new 0)), (proj2 (Z.ltb_ge out 0)) by lia.
  rewrite (proj2 (Z.ltb_lt cur (2 ^ 64))), (proj2 (Z.ltb_lt new (2 ^ 64))), (proj2 (Z.ltb_lt out (2 ^ 64))) by lia.
  rewrite (proj2 (Z.ltb_lt (2 * out) (2 ^ 64))), (proj2 (Z.ltb_lt (3 * out) (2 ^ 64))) by lia.
  split.
  - intro H. injection H as H. apply andb_prop in H as [H1 H2]. apply Z.ltb_lt in H1, H2. auto.
  - intros [H1 H2]. f_equal. rewrite (proj2 (Z.ltb_lt _ _) H1), (proj2 (Z.ltb_lt _ _) H2). reflexivity.
Qed.

(** The rule panics, and with it the selection, exactly when an amount does not fit in 64 bits or, in a build with overflow checks,
    when three times the value of the output does not. *)
Theorem C44_improvement_panics chk cur new out : 0 <= cur -> 0 <= new -> 0 <= out ->
  should_improve chk 1 cur new out = None <-> 2 ^ 64 <= cur \/ 2 ^ 64 <= new \/ 2 ^ 64 <= out \/ (chk = true /\ 2 ^ 64 <= 3 * out).
Proof.
  intros Hc Hn Ho. unfold should_improve, to_u64, mul_u64. rewrite !Z.div_1_r.
  rewrite (proj2 (Z.ltb_ge cur 0)), (proj2 (Z.ltb_ge new 0)), (proj2 (Z.ltb_ge out 0)) by lia.
  destruct (Z.ltb_spec cur (2 ^ 64)); [|split; [lia|done]]. destruct (Z.ltb_spec new (2 ^ 64)); [|split; [lia|done]].
  destruct (Z.ltb_spec out (2 ^ 64)); [|split; [lia|done]].
  destruct (Z.ltb_spec (2 * out) (2 ^ 64)), (Z.ltb_spec (3 * out) (2 ^ 64)); try lia; destruct chk; split; (discriminate || lia || intuition (lia || discriminate)).
Qed.

(** ** The whole way with a single change output: value and tokens are conserved *)
Theorem C44_pipeline {E} (est : estimator E) rnd chk sc inputs ord ordb hord av e ins outs c before av' e1 sel extra e2 s :
  (forall l, hord l ≡ₚ l) -> fair_t ord -> fair_t ordb -> NoDup av -> ri_available (inputs, av) = Some before ->
  Forall nonneg_in before -> Forall nonneg_in ins -> Forall nonneg_out outs -> NoDup outs -> fees_nonneg est ->
  ri_select est rnd chk sc inputs ord hord av e (from_fixed ins outs c) = (av', SDone (e1, sel)) ->
  single_change est ord ordb extra e1 (after sel c) = SDone (e2, s) ->
  exists change, se_changes s = [change] /\ c = Some (o_addr change) /\
    value_in (ins ++ se_chosen sel) = value_out (outs ++ [change]) + se_fee s /\
    (forall t, token_in t (ins ++ se_chosen sel) = token_out t (outs ++ [change])).
Proof.
  intros Hh Ho Hob N Hb Hnb Hi Hou Nf Hest R F.
  destruct (C39_totals ins outs c) as (T1 & T2 & T3 & T4 & _ & _ & T5 & T6 & _).
  destruct (C44_selected _ _ _ _ _ _ _ _ _ _ _ _ _ _ Hh N Hb R) as ((aft & _ & P) & _ & _ & O1 & O2 & O3 & O4 & _ & X).
  destruct (X Nf) as (I & A & _).
  assert (Hc : Forall nonneg_in (se_chosen sel)).
  { apply Forall_forall. intros u Hu. rewrite Forall_forall in Hnb. apply Hnb. rewrite <- P, elem_of_app. auto. }
  assert (Hfil : filed (se_in_assets sel)).
  { pose proof (select_spec est rnd chk sc inputs ord hord av e (from_fixed ins outs c) Hh N (at_indices_bound inputs av before Hb)) as S.
    rewrite R in S. destruct S as (? & ? & us & ? & ? & _ & _ & _ & _ & _ & _ & _ & Hr & _).
    rewrite Hr. cbn [se_in_assets]. apply filed_add_assets, filed_from_fixed_in. }
  assert (NI : nonneg_table (se_in_assets sel)).
  { apply nonneg_of_amounts. intro t. rewrite A, T3. assert (Y := token_in_nonneg t _ Hi). assert (Z := token_in_nonneg t _ Hc). lia. }
  assert (NO : nonneg_table (se_out_assets sel)).
  { apply nonneg_of_amounts. intro t. rewrite O2, T4. apply token_out_nonneg, Hou. }
  assert (Hout' : 0 <= su_out (after sel c)) by (cbn [after su_out]; rewrite O1, T2; apply value_out_nonneg, Hou).
  destruct (C43_single_change est ord ordb extra e1 (after sel c) e2 s Ho Hob Hfil NI NO Hout' Hest F)
    as (ch & f & g & Hch & Ca & Ex & Hhh & Hnd & Hpos & Ff & Fg & Fee & _ & Eq & _).
  cbn [after su_in su_in_assets su_out su_out_assets su_fixed_in su_fixed_out su_change] in *.
  exists ch. split; [done|]. split; [done|]. split.
  - rewrite value_in_app, value_out_app. rewrite I, O1, T1, T2 in Eq. unfold value_out at 2. cbn. lia.
  - intro t. rewrite token_in_app, token_out_app. specialize (Hhh t). rewrite A, O2, T3, T4 in Hhh.
    unfold token_out at 2. cbn. lia.
Qed.

(** ** Concrete runs *)
Definition coin (n : N) (v : Z) (l : list asset) : utxo := Utxo ("t", n) "me" v l "".
Definition zero_est : estimator (N * N) := flat 0 0 0.
Definition run_case rnd inputs outs :=
  let su := from_fixed [] outs None in
  ri_select (flat 2 1 1) rnd true 1 inputs tnatural (fun l => l) (ri_new inputs).2 (0, 0)%N su.

(** three outputs, a swap in the improvement phase, an extra input *)
Definition case_inputs := [coin 0 10 []; coin 1 40 []; coin 2 11 []; coin 3 7 [Asset "p" "n" "p:n" 5]; coin 4 9 []; coin 5 20 []; coin 6 15 []].
Definition case_outs := [Uout "a" 5 [] None; Uout "b" 9 [] None; Uout "c" 12 [Asset "p" "n" "p:n" 3] None].
Lemma case_outs_nodup : NoDup case_outs. Proof. apply (bool_decide_unpack _). by vm_compute. Qed.
Example C44_case :
  match run_case (fun n => (n * 3 + 1)%nat) case_inputs case_outs with
  | (av', SDone (e', r)) =>
      av' = [0; 1; 4]%nat /\ map u_value (se_chosen r) = [7; 15; 11; 20] /\
      se_in r = value_in (se_chosen r) /\ 26 <= se_in r /\ se_fee r = 6
  | _ => False
  end.
Proof. vm_compute. repeat split. discriminate. Qed.
(** the hypotheses of C44_succeeds *)
Definition case_many := [coin 0 10 []; coin 1 9 [Asset "p" "n" "F" 5]; coin 2 8 []; coin 3 10 []; coin 4 10 []; coin 5 3 []].
Definition case_two := [Uout "a" 5 [] None; Uout "b" 9 [Asset "p" "n" "F" 3] None].
Example C44_case_many :
  NoDup (ri_new case_many).2 /\ ri_available (ri_new case_many) = Some case_many /\ NoDup case_two /\
  Forall (fun o => 0 < o_value o) case_two /\ Forall (fun u => 0 <= u_value u <= 10) case_many /\
  value_out case_two + Z.of_nat (length case_two) * 10 <= value_in case_many /\
  forall t a o, su_out_assets (from_fixed [] case_two None) !! t = Some a -> o ∈ case_two ->
    find_qty (pair_token a) (o_assets o) = None.
Proof.
  split; [apply NoDup_seq|]. split; [reflexivity|]. split; [apply (bool_decide_unpack _); by vm_compute|].
  split; [repeat constructor|]. split; [repeat constructor; cbn; lia|]. split; [vm_compute; discriminate|].
  intros t a o L Ho.
  assert (D : pair_token a = "p:n").
  { cbn [from_fixed su_out_assets] in L. rewrite fold_tables in L. cbn [case_two flat_map o_assets app add_assets foldl] in L.
    unfold add_asset in L. cbn [a_fp a_policy a_name a_qty] in L. rewrite lookup_empty in L. cbn [default] in L.
    destruct (decide (t = "F")) as [ -> |Hne].
    - rewrite lookup_insert in L. injection L as <-. reflexivity.
    - rewrite lookup_insert_ne, lookup_empty in L by congruence. discriminate. }
  rewrite D. apply elem_of_list_In in Ho. cbn in Ho. destruct Ho as [<-|[<-|[]]]; reflexivity.
Qed.

(** ** What does not hold *)
(** Two equal outputs share their associated inputs, which are then counted twice: the reported total is wrong and the
    chosen inputs may not even cover the outputs. *)
Theorem C44_equal_outputs_refuted :
  exists rnd inputs outs, let su := from_fixed [] outs None in
    match ri_select (flat 2 1 1) rnd true 1 inputs tnatural (fun l => l) (ri_new inputs).2 (0, 0)%N su with
    | (_, SDone (_, r)) => se_in r <> value_in (se_chosen r) /\ value_in (se_chosen r) < value_out outs
    | _ => False
    end.
Proof.
  exists (fun n => (n mod 2)%nat), [coin 0 100 []; coin 1 100 []; coin 2 8 []; coin 3 8 []],
    [Uout "a" 10 [] None; Uout "a" 10 [] None].
  vm_compute. split; [discriminate|reflexivity].
Qed.
(** The extra inputs that the comment of the code says are for the fee are not looked for: the fee may be uncovered. *)
Theorem C44_fee_covered_refuted :
  exists rnd inputs outs, let su := from_fixed [] outs None in
    match ri_select (flat 2 1 1) rnd true 1 inputs tnatural (fun l => l) (ri_new inputs).2 (0, 0)%N su with
    | (av', SDone (_, r)) => se_in r < se_out r + se_fee r /\ av' <> [] /\ NoDup outs
    | _ => False
    end.
Proof.
  exists (fun _ => 0%nat), [coin 0 10 []; coin 1 10 []], [Uout "a" 10 [] None].
  vm_compute. split; [reflexivity|]. split; [discriminate|]. apply NoDup_singleton.
Qed.
(** A token known by a fingerprint that is not policy:name is not looked for, although available inputs hold it. *)
Theorem C44_tokens_covered_refuted :
  exists rnd inputs outs, let su := from_fixed [] outs None in
    match ri_select (flat 2 1 1) rnd true 1 inputs tnatural (fun l => l) (ri_new inputs).2 (0, 0)%N su with
    | (_, SDone (_, r)) =>
        token_in "F" (se_chosen r) < token_out "F" outs /\ token_out "F" outs <= token_in "F" inputs /\ NoDup outs
    | _ => False
    end.
Proof.
  exists (fun _ => 0%nat), [coin 0 10 []; coin 1 10 [Asset "p" "n" "F" 5]], [Uout "a" 10 [Asset "p" "n" "F" 3] None].
  vm_compute. split; [reflexivity|]. split; [discriminate|]. apply NoDup_singleton.
Qed.
(** Even under that name it may end up missing: the improvement phase compares main values only and swaps an input that
    has enough of the token for one that has not. *)
Theorem C44_improvement_loses_tokens_refuted :
  exists rnd inputs outs, let su := from_fixed [] outs None in
    match ri_select (flat 2 1 1) rnd true 1 inputs tnatural (fun l => l) (ri_new inputs).2 (0, 0)%N su with
    | (_, SDone (_, r)) =>
        token_in "p:n" (se_chosen r) < token_out "p:n" outs /\ token_out "p:n" outs <= token_in "p:n" inputs /\ NoDup outs
    | _ => False
    end.
Proof.
  exists (fun _ => 0%nat), [coin 0 50 [Asset "p" "n" "p:n" 5]; coin 1 20 [Asset "p" "n" "p:n" 1]; coin 2 20 []],
    [Uout "a" 10 [Asset "p" "n" "p:n" 5] None].
  vm_compute. split; [reflexivity|]. split; [discriminate|]. apply NoDup_singleton.
Qed.
(** With amounts in a unit as small as a wei, outputs of ordinary size panic: amounts from 2^64 on, and with overflow checks outputs
    from a third of that on. *)
Theorem C44_no_panic_refuted :
  (exists inputs out, Forall (fun u => 0 <= u_value u < 2 ^ 64) inputs /\ 0 < o_value out < 2 ^ 64 /\ o_value out <= value_in inputs /\
     (ri_select (flat 2 1 1) (fun _ => 0%nat) true 1 inputs tnatural (fun l => l) (ri_new inputs).2 (0, 0)%N (from_fixed [] [out] None)).2 = SPanic) /\
  (exists inputs out, o_value out <= value_in inputs /\
     (ri_select (flat 2 1 1) (fun _ => 0%nat) false 1 inputs tnatural (fun l => l) (ri_new inputs).2 (0, 0)%N (from_fixed [] [out] None)).2 = SPanic).
Proof.
  split.
  - exists [coin 0 (7 * 10 ^ 18) []; coin 1 5 []], (Uout "a" (7 * 10 ^ 18) [] None). split; [repeat constructor; cbn; lia|]. split; [cbn; lia|]. split; [vm_compute; discriminate|]. vm_compute. reflexivity.
  - exists [coin 0 (19 * 10 ^ 18) []; coin 1 5 []], (Uout "a" (19 * 10 ^ 18) [] None). split; [vm_compute; discriminate|]. vm_compute. reflexivity.
Qed.
(** A failed selection loses the inputs it had tried. *)
Theorem C44_failure_keeps_inputs_refuted :
  exists rnd inputs outs, let su := from_fixed [] outs None in
    match ri_select (flat 2 1 1) rnd true 1 inputs tnatural (fun l => l) (ri_new inputs).2 (0, 0)%N su with
    | (av', SFail _) => ri_available (inputs, av') = Some [] /\ inputs <> []
    | _ => False
    end.
Proof.
  exists (fun _ => 0%nat), [coin 0 5 []; coin 1 3 []], [Uout "a" 10 [] None]. vm_compute. split; [reflexivity|discriminate].
Qed.
(** Replacing the available inputs does not make the new ones available: with more of them the last ones are ignored, with
    fewer the next query is out of bounds. *)
Theorem C44_set_available_refuted :
  (exists l k, ri_available (ri_set_available k (ri_new l)) = Some [] /\ k <> []) /\
  (exists l k, ri_available (ri_set_available k (ri_new l)) = None).
Proof.
  split.
  - exists [], [coin 0 5 []]. vm_compute. split; [reflexivity|discriminate].
  - exists [coin 0 5 []], []. reflexivity.
Qed.
(** in general: replacing n inputs by m >= n makes the first n of them available if all of the old ones were *)
Theorem C44_set_available l k : (length l <= length k)%nat ->
  ri_available (ri_set_available k (ri_new l)) = Some (take (length l) k).
Proof.
  intro H. unfold ri_available, ri_set_available, ri_new. cbn [fst snd].
  assert (G : forall n k pre, (n <= length k)%nat -> at_indices (pre ++ k) (seq (length pre) n) = Some (take n k)).
  { clear. induction n as [|n IH]; intros k pre Hn; [done|]. destruct k as [|u k]; [cbn in Hn; lia|].
    cbn [seq at_indices take]. rewrite list_lookup_middle by done. cbn [length] in Hn. specialize (IH k (pre ++ [u]) ltac:(lia)).
    rewrite <- app_assoc, app_length in IH. cbn [app length] in IH. rewrite Nat.add_1_r in IH. by rewrite IH. }
  apply (G (length l) k []). done.
Qed.

(** one traversal for all theorems of this file: what the tuple assumes is what any of them assumes *)
Definition all_RandProps := (@C44_selected, @C44_improvement_rule, @C44_improvement_panics, @C44_no_panic_refuted, @C44_total, @C44_new, @C44_never_twice, @C44_succeeds, @C44_empty_output_fails, @C44_pipeline, @C44_equal_outputs_refuted, @C44_fee_covered_refuted, @C44_tokens_covered_refuted, @C44_improvement_loses_tokens_refuted, @C44_failure_keeps_inputs_refuted, @C44_set_available_refuted, @C44_set_available).
Print Assumptions all_RandProps.
