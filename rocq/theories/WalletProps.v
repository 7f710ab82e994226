(** C55: a wallet's books over any sequence of payments and receipts. *)
From Coq Require Import ZArith Lia.
From stdpp Require Import gmap strings list.
From Verif Require Import ValueModel BalanceModel BalanceProofs StoreModel StoreSpec StoreProofs StoreProps SelModel SelSpec SelProofs SelChangeProofs SelLargestProofs SelFewestProofs SelProps ThermoModel ThermoProofs ThermoProps WalletModel.
Open Scope Z_scope.

(** ** the specification: what a list of events says *)
(** the outputs that were received from others, those that came back as change, and those that were spent *)
Definition received {E} (l : list (event E)) : list utxo := flat_map (fun ev => match ev with Received u => [u] | _ => [] end) l.
Definition returned {E} (l : list (event E)) : list utxo := flat_map (fun ev => match ev with Paid _ _ b _ => b | _ => [] end) l.
Definition spent {E} (l : list (event E)) : list utxo := flat_map (fun ev => match ev with Paid _ c _ _ => c | _ => [] end) l.
(** what the payments sent to others (less what their inputs from elsewhere brought), and their fees *)
Definition sent {E} (l : list (event E)) : Z :=
  sumZ (map (fun ev => match ev with Paid p _ _ _ => value_out (p_outs p) - value_in (p_ins p) | _ => 0 end) l).
Definition sent_of {E} (t : token) (l : list (event E)) : Z :=
  sumZ (map (fun ev => match ev with Paid p _ _ _ => token_out t (p_outs p) - token_in t (p_ins p) | _ => 0 end) l).
Definition fees {E} (l : list (event E)) : Z := sumZ (map (fun ev => match ev with Paid _ _ _ f => f | _ => 0 end) l).

(** an output that lists only tokens, with amounts that are not negative *)
Definition plain_in (u : utxo) : Prop := nonneg_in u /\ MAIN ∉ map a_fp (u_assets u).
Definition plain_out (o : uout) : Prop := nonneg_out o /\ MAIN ∉ map a_fp (o_assets o).
Definition fair_orders (o : orders) : Prop :=
  (forall n, fair (w_enum o n)) /\ fair_t (w_ord o) /\ fair_t (w_ordb o) /\ fair_t (w_ordc o) /\ fair_t (w_ordv o).
Definition sane_way (w : way) : Prop :=
  match w with ByThermostat cfg => 0 <= c_min cfg <= c_max cfg /\ c_main cfg = MAIN | _ => True end.
Definition sane_request {E} (r : request E) : Prop :=
  match r with
  | Receive u => wf_utxo u /\ nonneg_in u
  | Pay p => fair_orders (p_orders p) /\ sane_way (p_way p) /\ Forall plain_in (p_ins p) /\ Forall plain_out (p_outs p)
  end.
(** an estimator whose answers are not negative *)
Definition sane_estimator {E} (est : estimator E) : Prop :=
  fees_nonneg est /\ forall e o e' m, e_min_value est e o = (e', Some m) -> 0 <= m.
(** for the thermostat: output fees are below half the least main value of a token change (C45_tokens) *)
Definition cheap_request {E} (est : estimator E) (sc : Z) (r : request E) : Prop :=
  match r with Pay p => match p_way p with ByThermostat cfg => cheap_outputs est sc cfg | _ => True end | Receive _ => True end.

(** ** lemmas *)
Lemma no_main_held l : MAIN ∉ map a_fp l -> held MAIN l = 0.
Proof.
  induction l as [|a l IH]; [reflexivity|]. cbn [map]. intro H. apply not_elem_of_cons in H as [H1 H2].
  unfold held in *. rewrite filter_cons_False by congruence. exact (IH H2).
Qed.
Lemma plain_ins l : Forall plain_in l -> Forall nonneg_in l /\ Forall no_main_in l.
Proof. intro H. split; (eapply Forall_impl; [exact H|]); intros u [A B]; [exact A|apply no_main_held, B]. Qed.
Lemma plain_outs l : Forall plain_out l -> Forall nonneg_out l /\ Forall no_main_out l.
Proof. intro H. split; (eapply Forall_impl; [exact H|]); intros u [A B]; [exact A|apply no_main_held, B]. Qed.

Lemma add_assets_key l : forall m t, t ∉ map a_fp l -> add_assets m l !! t = m !! t.
Proof.
  unfold add_assets. induction l as [|a l IH]; intros m t H; [reflexivity|]. cbn [foldl map] in *.
  apply not_elem_of_cons in H as [H1 H2]. rewrite IH by exact H2. unfold add_asset. apply lookup_insert_ne. congruence.
Qed.
Lemma plain_from_fixed ins outs c : Forall plain_in ins -> Forall plain_out outs -> plain_setup (from_fixed ins outs c).
Proof.
  intros A B. split; cbn [from_fixed su_in_assets su_out_assets].
  - assert (X : forall m, m !! MAIN = None -> foldl (fun m u => add_assets m (u_assets u)) m ins !! MAIN = None); [|apply X, lookup_empty].
    induction A as [|u l [_ U] _ IH]; intros m H; [exact H|]. cbn [foldl]. apply IH. rewrite add_assets_key by exact U. exact H.
  - assert (X : forall m, m !! MAIN = None -> foldl (fun m u => add_assets m (o_assets u)) m outs !! MAIN = None); [|apply X, lookup_empty].
    induction B as [|u l [_ U] _ IH]; intros m H; [exact H|]. cbn [foldl]. apply IH. rewrite add_assets_key by exact U. exact H.
Qed.

Lemma positive_held t l : Forall (fun a => 0 < a_qty a) l -> held t l = 0 -> t ∉ map a_fp l.
Proof.
  induction 1 as [|a l P Pl IH]; cbn [map]; intro H; [inversion 1|]. rewrite not_elem_of_cons. unfold held in H.
  assert (N : nonneg_list l) by (eapply Forall_impl; [exact Pl|]; cbn; intros; lia). assert (X := held_nonneg t l N).
  destruct (decide (a_fp a = t)) as [e|n].
  - rewrite filter_cons_True in H by exact e. cbn [map] in H. change (a_qty a + held t l = 0) in H. lia.
  - rewrite filter_cons_False in H by exact n. split; [congruence|]. apply IH, H.
Qed.

(** what a payment does to the pool, and that it balances *)
Lemma attempt_spec {E} (est : estimator E) sc above chk p h st' chosen changes fee :
  0 < sc -> sane_estimator est -> sane_request (Pay p) -> Forall wf_op h -> Forall nonneg_in (unspent h) ->
  attempt est sc above chk (final h) p = Some (st', chosen, changes, fee) ->
  st' = final (spend h chosen) /\ chosen ++ unspent (spend h chosen) ≡ₚ unspent h /\
  value_in (p_ins p ++ chosen) = value_out (p_outs p ++ changes) + fee /\
  (forall t, token_out t (p_outs p ++ changes) <= token_in t (p_ins p ++ chosen)) /\
  (cheap_request est sc (Pay p) -> forall t, token_out t (p_outs p ++ changes) = token_in t (p_ins p ++ chosen)) /\
  0 <= fee /\
  Forall (fun o => nonneg_list (o_assets o) /\ NoDup (MAIN :: map a_fp (o_assets o))) changes.
Proof.
  intros Hsc [Hest Hmin] ((He & Ho & Hob & Hoc & Hov) & Hway & Hins & Houts) Hw Hn.
  destruct (plain_ins _ Hins) as [Hi Hmi]. destruct (plain_outs _ Houts) as [Hou Hmo].
  destruct (C39_totals (p_ins p) (p_outs p) (p_change p)) as (T1 & T2 & T3 & T4 & _ & _ & T5 & T6 & _).
  assert (Hout : 0 <= su_out (from_fixed (p_ins p) (p_outs p) (p_change p))) by (rewrite T2; apply value_out_nonneg, Hou).
  unfold attempt. set (o := p_orders p) in *. cbn [cheap_request sane_way].
  set (su := from_fixed (p_ins p) (p_outs p) (p_change p)) in *.
  assert (LF : forall st1 e1 sel, lf_select est (w_enum o) (w_ord o) (final h) (p_est p) su = (st1, SDone (e1, sel)) ->
    st1 = final (spend h (se_chosen sel)) /\ se_chosen sel ++ unspent (spend h (se_chosen sel)) ≡ₚ unspent h /\
    (forall t, amount t (se_in_assets sel) = token_in t (p_ins p) + token_in t (se_chosen sel)) /\
    (forall t, amount t (se_out_assets sel) = token_out t (p_outs p)) /\ se_out sel = su_out su /\
    filed (se_in_assets sel) /\ nonneg_table (se_in_assets sel) /\ nonneg_table (se_out_assets sel) /\ Forall no_main_in (se_chosen sel)).
  { intros st1 e1 sel L.
    assert (Hfil : filed (se_in_assets sel)).
    { eapply lf_select_filed; [exact Ho|apply filed_from_fixed_in| |exact L]. cbn. rewrite fold_tables. apply filed_add_assets, filed_empty. }
    destruct (C40_selected est (w_enum o) (w_ord o) h (p_est p) su st1 e1 sel He Ho Hw Hn Hest Hout L) as (S & P & _ & _ & A & O1 & O2 & _).
    assert (Hc : Forall nonneg_in (se_chosen sel)).
    { apply Forall_forall. intros u Hu. rewrite Forall_forall in Hn. apply Hn. rewrite <- P, elem_of_app. auto. }
    split; [exact S|]. split; [exact P|]. split; [intro t; rewrite A, T3; reflexivity|]. split; [intro t; rewrite O2, T4; reflexivity|].
    split; [exact O1|]. split; [exact Hfil|]. split; [|split].
    - apply nonneg_of_amounts. intro t. rewrite A, T3. assert (X := token_in_nonneg t _ Hi). assert (Y := token_in_nonneg t _ Hc). lia.
    - apply nonneg_of_amounts. intro t. rewrite O2, T4. apply token_out_nonneg, Hou.
    - apply Forall_forall. intros u Hu. apply held_main, (unspent_wf h Hw). rewrite <- P, elem_of_app. auto. }
  destruct (p_way p) as [|extra|cfg] eqn:Wy.
  - destruct (lf_select _ _ _ _ _ _) as [st1 [[e1 sel]|e1| |]] eqn:L; try discriminate.
    destruct (fee_balance _ _ _ _) as [[e2 r]|e2| |] eqn:F; try discriminate. intro H. injection H as <- <- <- <-.
    destruct (LF _ _ _ eq_refl) as (S & P & A & B & O1 & Fi & NI & NO & Nm).
    destruct (C42_pipeline est (w_enum o) (w_ord o) h _ _ (p_change p) (p_est p) _ _ _ _ _ He Ho Hw Hn Hest Hi Hou Hmi Hmo L F) as (_ & V & K).
    assert (Q := C42_fee_change est (w_ord o) e1 (after sel (p_change p)) Ho NI NO ltac:(cbn [after su_out]; rewrite O1; exact Hout) Hest).
    rewrite F in Q. destruct Q as (_ & (f & Ff & Hfee) & _ & Tk & _ & S2 & _ & S4 & _ & _ & _ & Ch).
    assert (0 <= f) by (apply (proj1 (Hest e1) _ Ff)). rewrite Ch, app_nil_r.
    assert (Tq : forall t, token_out t (p_outs p) = token_in t (p_ins p ++ se_chosen sel)).
    { intro t. specialize (Tk t). rewrite S2, S4 in Tk. cbn [after su_in_assets su_out_assets] in Tk. rewrite A, B in Tk.
      rewrite token_in_app. lia. }
    split; [exact S|]. split; [exact P|]. split; [exact V|]. split; [intro t; rewrite Tq; lia|]. split; [intros _ t; apply Tq|].
    split; [lia|constructor].
  - destruct (lf_select _ _ _ _ _ _) as [st1 [[e1 sel]|e1| |]] eqn:L; try discriminate.
    destruct (single_change _ _ _ _ _ _) as [[e2 r]|e2| |] eqn:F; try discriminate. intro H. injection H as <- <- <- <-.
    destruct (LF _ _ _ eq_refl) as (S & P & A & B & O1 & Fi & NI & NO & Nm).
    destruct (C43_pipeline est (w_enum o) (w_ord o) (w_ordb o) extra h _ _ (p_change p) (p_est p) _ _ _ _ _ He Ho Hob Hw Hn Hest Hi Hou Hmi Hmo L F)
      as (c & Ch & Ca & V & K & _).
    destruct (C43_single_change est (w_ord o) (w_ordb o) extra e1 (after sel (p_change p)) e2 r Ho Hob Fi NI NO ltac:(cbn [after su_out]; rewrite O1; exact Hout) Hest F)
      as (c' & f & g & Ch' & _ & _ & Hh & Hnd & Hpos & Ff & Fg & Fee & _).
    rewrite Ch in Ch'. injection Ch' as <-. cbn [after su_in_assets su_out_assets] in Hh.
    assert (0 <= f) by (apply (proj1 (Hest e1) _ Ff)). assert (0 <= g) by (apply (proj2 (proj2 (Hest e1)) _ _ Fg)).
    rewrite Ch. split; [exact S|]. split; [exact P|]. split; [exact V|]. split; [intro t; rewrite K; lia|]. split; [intros _ t; symmetry; apply K|].
    split; [lia|]. constructor; [|constructor]. split; [eapply Forall_impl; [exact Hpos|]; cbn; intros; lia|].
    apply NoDup_cons. split; [|exact Hnd]. apply positive_held; [exact Hpos|]. rewrite Hh, A, B.
    rewrite (token_in_no_main _ Hmi), (token_in_no_main _ Nm), (token_out_no_main _ Hmo). lia.
  - destruct (th_select _ _ _ _ _ _ _ _ _ _ _ _ _) as [st1 [[e1 r]|e1| |]] eqn:T; try discriminate. intro H. injection H as <- <- <- <-.
    destruct Hway as [Hc Hm].
    assert (Pl : plain_setup su) by (apply plain_from_fixed; assumption).
    assert (Sa : sane est cfg h su). { split; [exact Hest|]. split; [exact Hmin|]. split; [exact Hc|]. split; [exact Hn|]. apply nonneg_totals; assumption. }
    destruct (C45_inputs est (w_enum o) sc above chk cfg (w_ord o) (w_ordb o) (w_ordc o) (w_ordv o) h (p_est p) su Hsc Ho Hob Hoc He Hw Hm Pl) as (_ & In).
    rewrite T in In. cbn [fst snd] in In. destruct (In _ _ eq_refl) as (P & S & _).
    assert (V := C45_main_value _ _ _ _ _ _ _ _ _ _ _ _ _ _ _ _ Hsc Ho Hoc Hov T).
    assert (K := C45_tokens _ _ _ _ _ _ _ _ _ _ _ _ _ _ _ _ Hsc Ho Hob Hoc Hov He Hw Hm Pl Hn T).
    destruct (C45_signs _ _ _ _ _ _ _ _ _ _ _ _ _ _ _ _ Hsc Ho Hob Hoc Hov He Hw Hm Pl Sa T) as [Fe Sg].
    assert (C := C45_changes _ _ _ _ _ _ _ _ _ _ _ _ _ _ _ _ Hsc Hest Ho Hob Hoc Hov Hm Pl T).
    split; [exact S|]. split; [exact P|].
    split. { rewrite value_in_app, value_out_app. rewrite T1, T2 in V. lia. }
    split. { intro t. destruct (K t) as [K1 _]. rewrite T3, T4 in K1. rewrite token_in_app, token_out_app. lia. }
    split. { intros Cheap t. destruct (K t) as [_ K2]. specialize (K2 Sa Cheap). rewrite T3, T4 in K2. rewrite token_in_app, token_out_app. lia. }
    split; [exact Fe|]. apply Forall_forall. intros x Hx. split; [rewrite Forall_forall in Sg; exact (proj2 (Sg x Hx))|].
    destruct (C x Hx) as (_ & _ & [Ea|(a & Ea & _ & Na & _)]); rewrite Ea; cbn [map].
    + apply NoDup_singleton.
    + apply NoDup_cons. split; [|apply NoDup_singleton]. rewrite elem_of_list_singleton. congruence.
Qed.

Lemma insert_all_spec l : forall h st', insert_all (final h) l = Some st' ->
  st' = final (h ++ map Insert l) /\ unspent (h ++ map Insert l) = unspent h ++ l.
Proof.
  induction l as [|u l IH]; intros h st'; cbn [insert_all map].
  - intro H. injection H as <-. rewrite !app_nil_r. auto.
  - destruct (store_insert (final h) u) as [st1 r] eqn:I. destruct r; try discriminate. intro H.
    assert (F : final (h ++ [Insert u]) = st1) by (rewrite final_snoc; cbn [store_step]; rewrite I; reflexivity).
    rewrite <- F in H. destruct (IH _ _ H) as [S U]. rewrite <- app_assoc in S, U. cbn [app] in S, U. split; [exact S|]. rewrite U.
    assert (Ue : unspent (h ++ [Insert u]) = unspent h ++ [u]).
    { unfold unspent. rewrite foldl_app. cbn [foldl spec_step]. fold (unspent h).
      destruct (decide (present (u_ptr u) (unspent h))) as [Pr|]; [|reflexivity]. exfalso.
      assert (X := C08_failing_changes_nothing h (Insert u)). cbn [spec_ok] in X. rewrite decide_True in X by exact Pr.
      specialize (X eq_refl). cbn [store_step] in X. change (fst (store_run store_new h)) with (final h) in X. rewrite I in X. congruence. }
    rewrite Ue, <- app_assoc. reflexivity.
Qed.

Lemma outputs_of_value tx l : forall i, value_in (outputs_of tx i l) = value_out l.
Proof. induction l as [|o l IH]; intro i; [reflexivity|]. cbn [outputs_of]. unfold value_in, value_out in *. cbn [map u_value]. unfold sumZ in *. cbn [foldr]. rewrite IH. reflexivity. Qed.
Lemma outputs_of_token t tx l : forall i, token_in t (outputs_of tx i l) = token_out t l.
Proof. induction l as [|o l IH]; intro i; [reflexivity|]. cbn [outputs_of]. unfold token_in, token_out in *. cbn [map u_assets]. unfold sumZ in *. cbn [foldr]. rewrite IH. reflexivity. Qed.
Lemma outputs_of_sane tx l : forall i, Forall (fun o => nonneg_list (o_assets o) /\ NoDup (MAIN :: map a_fp (o_assets o))) l ->
  forallb (fun o => 0 <=? o_value o) l = true -> Forall (fun u => wf_utxo u /\ nonneg_in u) (outputs_of tx i l).
Proof.
  induction l as [|o l IH]; intros i H F; [constructor|]. inversion H as [|? ? [A B] Hl]; subst. cbn [forallb] in F. apply andb_prop in F as [F1 F2].
  cbn [outputs_of]. constructor; [|apply IH; assumption]. split; [exact B|]. split; [cbn; lia|exact A].
Qed.

(** the pool after any requests: a history of the store and what the events add up to *)
Record tally {E} (h : list store_op) (evs : list (event E)) (cheap : Prop) : Prop := Tally {
  b_wf : Forall wf_op h;
  b_nonneg : Forall nonneg_in (unspent h);
  b_pool : spent evs ++ unspent h ≡ₚ received evs ++ returned evs;
  b_main : value_in (unspent h) + sent evs + fees evs = value_in (received evs);
  b_fees : Forall (fun ev => match ev with Paid _ _ _ f => 0 <= f | _ => True end) evs;
  b_token : forall t, token_in t (unspent h) + sent_of t evs <= token_in t (received evs);
  b_token_eq : cheap -> forall t, token_in t (unspent h) + sent_of t evs = token_in t (received evs)
}.

Lemma flat_map_snoc {A B} (f : A -> list B) l x : flat_map f (l ++ [x]) = flat_map f l ++ f x.
Proof. rewrite flat_map_app. cbn. rewrite app_nil_r. reflexivity. Qed.
Lemma sumZ_snoc {A} (f : A -> Z) l x : sumZ (map f (l ++ [x])) = sumZ (map f l) + f x.
Proof. rewrite map_app. rewrite sumZ_app. unfold sumZ. cbn. lia. Qed.
Lemma value_in_perm a b : a ≡ₚ b -> value_in a = value_in b.
Proof. unfold value_in, sumZ. intro H. induction H; cbn; lia. Qed.
Lemma token_in_perm t a b : a ≡ₚ b -> token_in t a = token_in t b.
Proof. unfold token_in, sumZ. intro H. induction H; cbn; lia. Qed.

Section Run.
  Context {E : Type} (est : estimator E) (sc : Z) (above : Z -> Z -> N -> bool) (chk : bool).
  Hypotheses (Hsc : 0 < sc) (Hest : sane_estimator est).
  Notation step := (wallet_step est sc above chk).
  Notation run := (wallet_run est sc above chk).

  Lemma step_tally (cheap : Prop) h evs r st' ev : tally h evs cheap -> sane_request r -> (cheap -> cheap_request est sc r) ->
    step (final h) r = (st', ev) -> exists h', st' = final h' /\ tally h' (evs ++ [ev]) cheap.
  Proof.
    intros [W N P M F T Te] Hr Hc. assert (Stay : exists h', final h = final h' /\ tally h' (evs ++ [@Refused E]) cheap).
    { exists h. split; [reflexivity|]. split; try assumption; unfold spent, received, returned, sent, fees, sent_of in *;
        rewrite ?flat_map_snoc, ?sumZ_snoc, ?app_nil_r; try assumption; try lia.
      - apply Forall_app. auto.
      - intro t. rewrite ?flat_map_snoc, ?sumZ_snoc, ?app_nil_r. specialize (T t). lia.
      - intros X t. rewrite ?flat_map_snoc, ?sumZ_snoc, ?app_nil_r. specialize (Te X t). lia. }
    destruct r as [u|p]; cbn [wallet_step].
    - destruct (store_insert (final h) u) as [st1 o] eqn:I. destruct o; intro H; injection H as <- <-; try exact Stay.
      destruct (insert_all_spec [u] h st1) as [S U]; [cbn; rewrite I; reflexivity|]. cbn [map] in *. destruct Hr as [Hr1 Hr2].
      exists (h ++ [Insert u]). split; [exact S|]. split; unfold spent, received, returned, sent, fees, sent_of in *;
        rewrite ?flat_map_snoc, ?sumZ_snoc, ?app_nil_r.
      + apply Forall_app. split; [exact W|]. constructor; [exact Hr1|constructor].
      + rewrite U. apply Forall_app. split; [exact N|]. constructor; [exact Hr2|constructor].
      + rewrite U, app_assoc, P, <- !app_assoc. apply Permutation_app_head, Permutation_app_comm.
      + rewrite U, !value_in_app. lia.
      + apply Forall_app. auto.
      + intro t. rewrite ?flat_map_snoc, ?sumZ_snoc, U, !token_in_app. specialize (T t). lia.
      + intros X t. rewrite ?flat_map_snoc, ?sumZ_snoc, U, !token_in_app. specialize (Te X t). lia.
    - destruct (attempt est sc above chk (final h) p) as [[[[st1 chosen] changes] fee]|] eqn:A; [|intro H; injection H as <- <-; exact Stay].
      destruct (attempt_spec est sc above chk p h st1 chosen changes fee Hsc Hest Hr W N A) as (S & Pc & V & K & Ke & Fe & Sh).
      destruct (forallb _ changes) eqn:Fb; [|intro H; injection H as <- <-; exact Stay]. subst st1.
      set (back := outputs_of (p_tx p) (N.of_nat (length (p_outs p))) changes).
      destruct (insert_all (final (spend h chosen)) back) as [st2|] eqn:I; intro H; injection H as <- <-; [|exact Stay].
      destruct (insert_all_spec back _ _ I) as [S U]. assert (Sb := outputs_of_sane (p_tx p) changes (N.of_nat (length (p_outs p))) Sh Fb). fold back in Sb.
      exists (spend h chosen ++ map Insert back). split; [exact S|].
      assert (Vb : value_in back = value_out changes) by apply outputs_of_value.
      assert (Tb : forall t, token_in t back = token_out t changes) by (intro t; apply outputs_of_token).
      assert (Vu := value_in_perm _ _ Pc). rewrite value_in_app in Vu. rewrite value_in_app, value_out_app in V.
      split; unfold spent, received, returned, sent, fees, sent_of in *; rewrite ?flat_map_snoc, ?sumZ_snoc, ?app_nil_r.
      + apply Forall_app. split; [apply spend_wf, W|]. apply Forall_forall. intros x Hx. apply elem_of_list_fmap in Hx as (u & -> & Hu).
        rewrite Forall_forall in Sb. exact (proj1 (Sb u Hu)).
      + rewrite U. apply Forall_app. split.
        * apply Forall_forall. intros u Hu. rewrite Forall_forall in N. apply N. rewrite <- Pc, elem_of_app. auto.
        * eapply Forall_impl; [exact Sb|]. intros u [_ Hu]. exact Hu.
      + rewrite U, <- (app_assoc _ chosen), (app_assoc chosen), Pc, !app_assoc, P. reflexivity.
      + rewrite U, value_in_app. lia.
      + apply Forall_app. auto.
      + intro t. rewrite ?flat_map_snoc, ?sumZ_snoc, ?app_nil_r, U, token_in_app. specialize (T t). specialize (K t). specialize (Tb t).
        assert (Tu := token_in_perm t _ _ Pc). rewrite token_in_app in Tu. rewrite token_in_app, token_out_app in K. lia.
      + intros X t. rewrite ?flat_map_snoc, ?sumZ_snoc, ?app_nil_r, U, token_in_app. specialize (Te X t). specialize (Ke (Hc X) t). specialize (Tb t).
        assert (Tu := token_in_perm t _ _ Pc). rewrite token_in_app in Tu. rewrite token_in_app, token_out_app in Ke. lia.
  Qed.

  Lemma run_tally (cheap : Prop) rs : forall h evs0 st evs, tally h evs0 cheap -> Forall sane_request rs -> (cheap -> Forall (cheap_request est sc) rs) ->
    run (final h) rs = (st, evs) -> exists h', st = final h' /\ tally h' (evs0 ++ evs) cheap.
  Proof.
    induction rs as [|r rs IH]; intros h evs0 st evs T Hr Hc; cbn [wallet_run].
    - intro H. injection H as <- <-. exists h. rewrite app_nil_r. auto.
    - inversion Hr as [|? ? H1 H2]; subst. destruct (step (final h) r) as [st1 ev] eqn:S. destruct (run st1 rs) as [st2 evs1] eqn:R.
      intro H. injection H as <- <-.
      destruct (step_tally cheap h evs0 r st1 ev T H1) as (h1 & -> & T1); [|exact S|].
      { intro X. specialize (Hc X). inversion Hc; assumption. }
      destruct (IH h1 (evs0 ++ [ev]) st2 evs1 T1 H2) as (h2 & -> & T2); [|exact R|].
      { intro X. specialize (Hc X). inversion Hc; assumption. }
      exists h2. rewrite <- app_assoc in T2. auto.
  Qed.

  Lemma start_tally (cheap : Prop) : tally (E := E) [] [] cheap.
  Proof. split; try constructor; intros; reflexivity. Qed.
  Lemma run_start (cheap : Prop) rs st evs : Forall sane_request rs -> (cheap -> Forall (cheap_request est sc) rs) ->
    run store_new rs = (st, evs) -> exists h, st = final h /\ tally h evs cheap.
  Proof. intros A B C. exact (run_tally cheap rs [] [] st evs (start_tally cheap) A B C). Qed.

  (** ** The pool *)
  (** At any time the outputs that were spent and those still available are together exactly those that were received or
      came back as change, each as often; so none is spent twice, and none that was spent is still available. *)
  Theorem C55_pool rs st evs : Forall sane_request rs -> run store_new rs = (st, evs) ->
    (forall enum, fair enum -> spent evs ++ store_iter enum st ≡ₚ received evs ++ returned evs) /\
    (NoDup (map u_ptr (received evs ++ returned evs)) ->
       NoDup (map u_ptr (spent evs)) /\ forall u, u ∈ spent evs -> store_contains st (u_ptr u) = false).
  Proof.
    intros Hr R. destruct (run_start False rs st evs Hr ltac:(tauto) R) as (h & -> & [W N P M F T Te]).
    destruct (C08_contents h) as (_ & Cc & _ & _ & Ci). change (fst (store_run store_new h)) with (final h) in *. split.
    - intros enum He. rewrite (Ci enum He). exact P.
    - rewrite <- (Permutation_map u_ptr P), map_app. intro Nd. apply NoDup_app in Nd as (A & B & _). split; [exact A|].
      intros u Hu. apply not_true_iff_false. rewrite Cc. intros (v & Hv & Ev). apply (B (u_ptr u)).
      + apply elem_of_list_fmap. eauto.
      + rewrite <- Ev. apply elem_of_list_fmap. eauto.
  Qed.

  (** ** The main value *)
  (** The balance of the pool is what was received, less what was sent to others, less the fees (none of them negative). *)
  Theorem C55_main_value rs st evs : Forall sane_request rs -> run store_new rs = (st, evs) ->
    main_balance st = value_in (received evs) - sent evs - fees evs /\ 0 <= main_balance st /\
    Forall (fun ev => match ev with Paid _ _ _ f => 0 <= f | _ => True end) evs.
  Proof.
    intros Hr R. destruct (run_start False rs st evs Hr ltac:(tauto) R) as (h & -> & [W N P M F T Te]).
    assert (X := C09_main_balance h). change (fst (store_run store_new h)) with (final h) in X. rewrite X.
    change (sumZ (map u_value (unspent h))) with (value_in (unspent h)). assert (Y := value_in_nonneg _ N). split; [lia|]. split; [exact Y|exact F].
  Qed.

  Lemma pool_token h t : Forall wf_op h -> t <> MAIN -> default 0 (get_balance_of (final h) t) = token_in t (unspent h).
  Proof.
    intros W Ht. destruct (C09_token_balance h t W) as (_ & A & B). change (fst (store_run store_new h)) with (final h) in *.
    assert (Q : forall u, quantity t u = held t (u_assets u)) by (intro u; unfold quantity; rewrite decide_False by exact Ht; reflexivity).
    destruct (get_balance_of (final h) t) as [b|]; cbn [default].
    - rewrite (B b eq_refl). unfold token_in. rewrite (map_ext _ _ Q). reflexivity.
    - symmetry. apply token_in_zero. intros u Hu. destruct A as [A _]. specialize (A eq_refl).
      unfold held. destruct (filter (fun a => a_fp a = t) (u_assets u)) as [|a l] eqn:Fi; [reflexivity|]. exfalso. apply A. exists u.
      split; [exact Hu|]. right. assert (X : a ∈ filter (fun a => a_fp a = t) (u_assets u)) by (rewrite Fi; left).
      apply elem_of_list_filter in X as [X1 X2]. apply elem_of_list_fmap. exists a. auto.
  Qed.

  (** ** The tokens *)
  (** The pool holds no more of any token than was received less what was sent; and exactly that, if no payment used the
      thermostat with output fees that reach half the least main value of a token change. *)
  Theorem C55_tokens rs st evs t : Forall sane_request rs -> t <> MAIN -> run store_new rs = (st, evs) ->
    default 0 (get_balance_of st t) <= token_in t (received evs) - sent_of t evs /\
    (Forall (cheap_request est sc) rs -> default 0 (get_balance_of st t) = token_in t (received evs) - sent_of t evs).
  Proof.
    intros Hr Ht R.
    destruct (run_start (Forall (cheap_request est sc) rs) rs st evs Hr ltac:(tauto) R) as (h & -> & [W N P M F T Te]).
    rewrite (pool_token h t W Ht). split; [specialize (T t); lia|]. intro X. specialize (Te X t). lia.
  Qed.

  (** ** Fresh ids *)
  (** outputs received from others are distinct, the payments' transactions are distinct, and nobody else's *)
  Definition fresh (rs : list (request E)) : Prop :=
    NoDup (flat_map (fun r => match r with Receive u => [u_ptr u] | Pay _ => [] end) rs) /\
    NoDup (flat_map (fun r => match r with Receive _ => [] | Pay p => [p_tx p] end) rs) /\
    forall u p, Receive u ∈ rs -> Pay p ∈ rs -> fst (u_ptr u) <> p_tx p.

  (** the event of a request *)
  Definition answers (r : request E) (ev : event E) : Prop :=
    match r, ev with
    | Receive u, Received v => v = u
    | Pay p, Paid q _ back _ => q = p /\ exists changes, back = outputs_of (p_tx p) (N.of_nat (length (p_outs p))) changes
    | _, Refused => True
    | _, _ => False
    end.
  Lemma run_answers rs : forall st st' evs, run st rs = (st', evs) -> Forall2 answers rs evs.
  Proof.
    induction rs as [|r rs IH]; intros st st' evs; cbn [wallet_run].
    - intro H. injection H as <- <-. constructor.
    - destruct (step st r) as [st1 ev] eqn:S. destruct (run st1 rs) as [st2 evs1] eqn:R. intro H. injection H as <- <-.
      constructor; [|exact (IH _ _ _ R)]. destruct r as [u|p]; cbn [wallet_step] in S.
      + destruct (store_insert st u) as [s1 o]. destruct o; injection S as <- <-; exact eq_refl || exact Logic.I.
      + destruct (attempt _ _ _ _ _ _) as [[[[s1 c] ch] f]|]; [|injection S as <- <-; exact Logic.I].
        destruct (forallb _ _); [|injection S as <- <-; exact Logic.I].
        destruct (insert_all _ _) as [s2|]; injection S as <- <-; [|exact Logic.I]. cbn. eauto.
  Qed.
  Lemma outputs_of_ptr tx l : forall i u, u ∈ outputs_of tx i l -> fst (u_ptr u) = tx /\ (i <= snd (u_ptr u))%N.
  Proof.
    induction l as [|o l IH]; intros i u; cbn [outputs_of]; [inversion 1|]. rewrite elem_of_cons. intros [->|H]; [cbn; split; [reflexivity|lia]|].
    destruct (IH _ _ H). split; [assumption|lia].
  Qed.
  Lemma outputs_of_distinct tx l : forall i, NoDup (map u_ptr (outputs_of tx i l)).
  Proof.
    induction l as [|o l IH]; intro i; cbn [outputs_of map]; [constructor|]. apply NoDup_cons. split; [|apply IH]. cbn [u_ptr].
    intro H. apply elem_of_list_fmap in H as (u & Hu & Hin). apply outputs_of_ptr in Hin as [_ Hin]. rewrite <- Hu in Hin. cbn in Hin. lia.
  Qed.

  Lemma fresh_tail r rs : fresh (r :: rs) -> fresh rs.
  Proof.
    intros (A & B & C). cbn [flat_map] in A, B. apply NoDup_app in A as (_ & _ & A). apply NoDup_app in B as (_ & _ & B).
    split; [exact A|]. split; [exact B|]. intros u p Hu Hp. apply C; right; assumption.
  Qed.
  Lemma received_sub rs evs : Forall2 answers rs evs -> forall u, u ∈ received evs -> Receive u ∈ rs.
  Proof.
    induction 1 as [|r ev rs evs A _ IH]; intros u Hu; [inversion Hu|]. unfold received in Hu. cbn [flat_map] in Hu.
    apply elem_of_app in Hu as [Hu|Hu]; [|right; apply IH, Hu].
    destruct ev; try inversion Hu; subst; [|match goal with H : _ ∈ [] |- _ => inversion H end]. destruct r; cbn in A; subst; [left|contradiction].
  Qed.
  Lemma returned_sub rs evs : Forall2 answers rs evs -> forall u, u ∈ returned evs -> exists p, Pay p ∈ rs /\ fst (u_ptr u) = p_tx p.
  Proof.
    induction 1 as [|r ev rs evs A _ IH]; intros u Hu; [inversion Hu|]. unfold returned in Hu. cbn [flat_map] in Hu.
    apply elem_of_app in Hu as [Hu|Hu]; [|destruct (IH _ Hu) as (p & Hp & Q); exists p; split; [right; exact Hp|exact Q]].
    destruct ev as [v|q c b f|]; try (inversion Hu; fail). destruct r as [v|p]; cbn in A; [contradiction|]. destruct A as [-> [ch ->]].
    apply outputs_of_ptr in Hu as [Hu _]. exists p. split; [left|exact Hu].
  Qed.
  Lemma fresh_distinct rs evs : Forall2 answers rs evs -> fresh rs -> NoDup (map u_ptr (received evs ++ returned evs)).
  Proof.
    intros A F. rewrite map_app. apply NoDup_app. split; [|split].
    - assert (G := proj1 F). clear F. induction A as [|r ev rs evs A Al IH]; [constructor|]. cbn [flat_map] in G.
      apply NoDup_app in G as (_ & G1 & G2). specialize (IH G2). unfold received. cbn [flat_map]. fold (received evs). rewrite map_app.
      destruct ev as [v| |]; [|exact IH|exact IH]. destruct r as [u|p]; cbn in A; [|contradiction]. subst v. cbn [map app].
      apply NoDup_cons. split; [|exact IH]. intro H. apply elem_of_list_fmap in H as (w & Ew & Hw).
      apply (G1 (u_ptr u)); [left|]. apply (received_sub _ _ Al) in Hw. apply elem_of_list_In, in_flat_map.
      exists (Receive w). split; [apply elem_of_list_In, Hw|left; congruence].
    - intros q Hq1 Hq2. apply elem_of_list_fmap in Hq1 as (u & -> & Hu). apply elem_of_list_fmap in Hq2 as (v & Ev & Hv).
      apply (received_sub _ _ A) in Hu. apply (returned_sub _ _ A) in Hv as (p & Hp & Q). apply (proj2 (proj2 F) u p Hu Hp). congruence.
    - assert (G := proj1 (proj2 F)). clear F. induction A as [|r ev rs evs A Al IH]; [constructor|]. cbn [flat_map] in G.
      apply NoDup_app in G as (_ & G1 & G2). specialize (IH G2). unfold returned. cbn [flat_map]. fold (returned evs). rewrite map_app.
      destruct ev as [|q c b f|]; [exact IH| |exact IH]. destruct r as [u|p]; cbn in A; [contradiction|]. destruct A as [-> [ch ->]].
      apply NoDup_app. split; [apply outputs_of_distinct|]. split; [|exact IH]. intros x Hx Hy.
      apply elem_of_list_fmap in Hx as (u & -> & Hu). apply elem_of_list_fmap in Hy as (v & Ev & Hv).
      apply outputs_of_ptr in Hu as [Hu _]. apply (returned_sub _ _ Al) in Hv as (q & Hq & Q). apply (G1 (p_tx p)); [left|].
      apply elem_of_list_In, in_flat_map. exists (Pay q). split; [apply elem_of_list_In, Hq|left; congruence].
  Qed.

  (** The n-th change output of a payment becomes available at position n after the payment's own outputs, in the payment's
      transaction, and is what the selection returned: the address, the main value, the tokens and the note of a change
      output that the payment's attempt gives. *)
  Theorem C55_change_positions st p st' q chosen back fee :
    step st (Pay p) = (st', Paid q chosen back fee) ->
    q = p /\ exists s1 changes, attempt est sc above chk st p = Some (s1, chosen, changes, fee) /\ length back = length changes /\
      forall n o, changes !! n = Some o -> exists u, back !! n = Some u /\
        u_ptr u = (p_tx p, N.of_nat (length (p_outs p) + n)) /\ u_addr u = o_addr o /\ u_value u = o_value o /\ u_assets u = o_assets o.
  Proof.
    cbn [wallet_step]. destruct (attempt _ _ _ _ _ _) as [[[[s1 c] ch] f]|] eqn:A; [|discriminate].
    destruct (forallb _ _); [|discriminate]. destruct (insert_all _ _) as [s2|]; [|discriminate]. intros [= <- <- <- <- <-].
    split; [reflexivity|]. exists s1, ch. split; [reflexivity|]. generalize (length (p_outs p)) as i. generalize (p_tx p) as tx. intro tx.
    clear A. induction ch as [|o ch IH]; intro i; [split; [reflexivity|]; intros n o; rewrite lookup_nil; discriminate|].
    cbn [outputs_of length]. replace (N.of_nat i + 1)%N with (N.of_nat (S i)) by lia. destruct (IH (S i)) as [L R].
    split; [f_equal; exact L|]. intros [|n] o' H.
    - injection H as <-. eexists. split; [reflexivity|]. cbn. rewrite Nat.add_0_r. auto.
    - destruct (R n o' H) as (u & U1 & U2 & U3). exists u. split; [exact U1|]. split; [|exact U3]. rewrite U2. f_equal. lia.
  Qed.

  (** With fresh ids no output is ever spent twice, over the whole sequence. *)
  Theorem C55_spent_once rs st evs : Forall sane_request rs -> fresh rs -> run store_new rs = (st, evs) ->
    NoDup (map u_ptr (spent evs)) /\ (forall u, u ∈ spent evs -> store_contains st (u_ptr u) = false) /\
    Forall2 answers rs evs.
  Proof.
    intros Hr F R. assert (A := run_answers _ _ _ _ R).
    destruct (proj2 (C55_pool rs st evs Hr R) (fresh_distinct _ _ A F)) as [X Y]. auto.
  Qed.

  Lemma insert_all_fresh l : forall h, NoDup (map u_ptr l) -> (forall u, u ∈ l -> ~ present (u_ptr u) (unspent h)) ->
    is_Some (insert_all (final h) l).
  Proof.
    induction l as [|u l IH]; intros h N P; cbn [insert_all]; [eauto|]. cbn [map] in N. apply NoDup_cons in N as [N1 N2].
    assert (Pu := P u ltac:(left)). destruct (weak_step _ _ (Insert u) (proj2 (final_spec h))) as (s1 & o & S & Np & _ & Er & _).
    assert (O : o = OpOk).
    { destruct o; [reflexivity| |contradiction]. exfalso. apply Pu.
      destruct (proj1 Er eq_refl) as [w Hw]. apply as_map_Some in Hw as [Hw1 Hw2]; [|apply NoDup_unspent].
      apply Exists_exists. eauto. }
    subst o. cbn [store_step] in S. rewrite S.
    assert (Fs : final (h ++ [Insert u]) = s1) by (rewrite final_snoc; cbn [store_step]; rewrite S; reflexivity). rewrite <- Fs.
    apply IH; [exact N2|]. intros v Hv. unfold unspent. rewrite foldl_app. cbn [foldl spec_step]. fold (unspent h). rewrite decide_False by exact Pu.
    intro X. apply Exists_app in X as [X|X].
    - apply (P v); [right; exact Hv|exact X].
    - inversion X as [? ? Y|? ? Y]; subst; [|inversion Y]. apply N1. rewrite Y. apply elem_of_list_fmap. eauto.
  Qed.

  (** With fresh ids a request is refused only when the algorithms refuse it or give a negative change. *)
  Theorem C55_refusals rs r st evs : Forall sane_request (rs ++ [r]) -> fresh (rs ++ [r]) -> run store_new rs = (st, evs) ->
    snd (step st r) = Refused ->
    exists p, r = Pay p /\
      (attempt est sc above chk st p = None \/
       exists st' chosen changes fee, attempt est sc above chk st p = Some (st', chosen, changes, fee) /\ exists o, o ∈ changes /\ o_value o < 0).
  Proof.
    intros Hr F R Rf. apply Forall_app in Hr as [Hr1 Hr2]. inversion Hr2 as [|? ? Hr3 _]; subst. clear Hr2.
    destruct (run_start False rs st evs Hr1 ltac:(tauto) R) as (h & -> & [W N P _ _ _ _]). assert (A := run_answers _ _ _ _ R).
    destruct F as (F1 & F2 & F3). rewrite flat_map_app in F1, F2. apply NoDup_app in F1 as (_ & F1 & _). apply NoDup_app in F2 as (_ & F2 & _).
    assert (Old : forall x, present x (unspent h) ->
      (exists u, Receive u ∈ rs /\ u_ptr u = x) \/ (exists p, Pay p ∈ rs /\ p_tx p = fst x)).
    { intros x X. apply Exists_exists in X as (u & Hu & Eu). assert (In : u ∈ received evs ++ returned evs) by (rewrite <- P, elem_of_app; auto).
      apply elem_of_app in In as [In|In].
      - left. exists u. split; [apply (received_sub _ _ A _ In)|exact Eu].
      - right. destruct (returned_sub _ _ A _ In) as (p & Hp & Q). exists p. split; [exact Hp|congruence]. }
    destruct r as [u|p]; cbn [wallet_step] in Rf.
    - exfalso. destruct (insert_all_fresh [u] h) as [s1 I1].
      + apply NoDup_singleton.
      + intros v Hv. apply elem_of_list_singleton in Hv as ->. intro X. destruct (Old _ X) as [(w & Hw & Ew)|(p & Hp & Ep)].
        * apply (F1 (u_ptr w)); [apply elem_of_list_In, in_flat_map; exists (Receive w); split; [apply elem_of_list_In, Hw|left; reflexivity]|].
          rewrite Ew. left.
        * apply (F3 u p); [apply elem_of_app; right; left|apply elem_of_app; left; exact Hp|congruence].
      + cbn in I1. destruct (store_insert (final h) u) as [s2 o]. destruct o; discriminate.
    - exists p. split; [reflexivity|]. destruct (attempt est sc above chk (final h) p) as [[[[s1 c] ch] f]|] eqn:At; [right|left; reflexivity].
      exists s1, c, ch, f. split; [reflexivity|]. destruct (forallb (fun o => 0 <=? o_value o) ch) eqn:Fb.
      + exfalso. destruct (attempt_spec est sc above chk p h s1 c ch f Hsc Hest Hr3 W N At) as (-> & Pc & _).
        destruct (insert_all_fresh (outputs_of (p_tx p) (N.of_nat (length (p_outs p))) ch) (spend h c)) as [s2 I2].
        * apply outputs_of_distinct.
        * intros v Hv X. apply outputs_of_ptr in Hv as [Hv _].
          assert (X' : present (u_ptr v) (unspent h)).
          { apply Exists_exists in X as (w & Hw & Ew). apply Exists_exists. exists w. split; [|exact Ew]. rewrite <- Pc, elem_of_app. auto. }
          destruct (Old _ X') as [(w & Hw & Ew)|(q & Hq & Eq)].
          -- apply (F3 w p); [apply elem_of_app; left; exact Hw|apply elem_of_app; right; left|congruence].
          -- apply (F2 (p_tx q)); [apply elem_of_list_In, in_flat_map; exists (Pay q); split; [apply elem_of_list_In, Hq|left; reflexivity]|].
             replace (p_tx q) with (p_tx p) by congruence. left.
        * rewrite I2 in Rf. discriminate.
      + destruct (decide (Exists (fun o => o_value o < 0) ch)) as [X|X]; [apply Exists_exists in X as (o & Ho & Lo); eauto|].
        exfalso. apply not_true_iff_false in Fb. apply Fb. apply forallb_forall. intros o Ho. apply Z.leb_le.
        apply Z.nlt_ge. intro L. apply X, Exists_exists. exists o. split; [apply elem_of_list_In, Ho|exact L].
  Qed.
End Run.

(** ** A concrete wallet *)
Definition nat_orders : orders := Orders (fun _ => natural) tnatural tnatural tnatural tnatural.
Definition wpay (w : way) (tx : string) (outs : list uout) : request (N * N) := Pay (Payment w nat_orders (0, 1)%N tx [] outs (Some "me"%string)).
(** outputs are received; a payment with one change output, one with the thermostat that spends that change, one that is too
    large, and one whose excess goes to the fee *)
Definition day : list (request (N * N)) :=
  [Receive (tu 0 100 60); Receive (tu 1 5 7); Receive (tu 2 30 0); Receive (tu 3 40 0);
   wpay (ToChange None) "p1" [Uout "you" 50 [] None];
   wpay (ByThermostat cfg_usual) "p2" [Uout "you" 15 [Asset "p" "a" "A" 6] None];
   wpay (ToChange None) "p3" [Uout "you" 5000 [] None];
   Receive (tu 4 12 0);
   wpay ToFee "p4" [Uout "you" 60 [] None]].
Definition wallet_day := wallet_run (flat 2 1 1) 1 more false store_new day.
Example C55_case_runs :
  map (fun ev => match ev with
                 | Received u => (1, u_ptr u, 0, [])
                 | Paid p c b f => (2, (p_tx p, N.of_nat (length b)), f, map u_ptr c)
                 | Refused => (3, (""%string, 0%N), 0, []) end) (snd wallet_day)
  = [(1, ("t", 0%N), 0, []); (1, ("t", 1%N), 0, []); (1, ("t", 2%N), 0, []); (1, ("t", 3%N), 0, []);
     (2, ("p1", 1%N), 5, [("t", 0%N)]);
     (2, ("p2", 3%N), 7, [("p1", 1%N)]);
     (3, (""%string, 0%N), 0, []);
     (1, ("t", 4%N), 0, []);
     (2, ("p4", 0%N), 10, [("t", 3%N); ("t", 2%N)])] /\
  (value_in (received (snd wallet_day)), sent (snd wallet_day), fees (snd wallet_day), main_balance (fst wallet_day)) = (187, 125, 22, 40) /\
  (token_in "A" (received (snd wallet_day)), sent_of "A" (snd wallet_day), get_balance_of (fst wallet_day) "A") = (67, 6, Some 61).
Proof. vm_compute. repeat split; reflexivity. Qed.
Example C55_case_hyps :
  sane_estimator (flat 2 1 1) /\ Forall sane_request day /\ Forall (cheap_request (flat 2 1 1) 1) day /\ fresh day.
Proof.
  split; [|split; [|split]].
  - split; [apply flat_ok; lia|]. cbn. intros e o e' m H. injection H as <- <-. lia.
  - assert (Fo : fair_orders nat_orders) by (split; [intros n m; reflexivity|split; [|split; [|split]]; apply tnatural_fair]).
    assert (Out : forall v l, 0 <= v -> (l = [] \/ l = [Asset "p" "a" "A" 6]) -> Forall plain_out [Uout "you" v l None]).
    { intros v l Hv Hl. constructor; [|constructor]. destruct Hl as [-> | ->]; (split; [split; [exact Hv|]|]); cbn; try constructor; cbn; try lia; try constructor.
      - inversion 1.
      - apply (bool_decide_unpack _). by vm_compute. }
    assert (Wp : forall w tx v l, sane_way w -> 0 <= v -> (l = [] \/ l = [Asset "p" "a" "A" 6]) -> sane_request (wpay w tx [Uout "you" v l None])).
    { intros w tx v l Hw Hv Hl. split; [exact Fo|]. split; [exact Hw|]. split; [constructor|]. exact (Out v l Hv Hl). }
    unfold day. repeat (apply Forall_cons; split; [first
      [ split; [exact (wf_tu _ _ _)|apply nonneg_tu; lia]
      | apply Wp; [first [exact Logic.I|split; [cbn; lia|reflexivity]]|lia|auto] ]|]). constructor.
  - unfold day. repeat (apply Forall_cons; split; [first [exact Logic.I|intros e o f H; injection H as <-; vm_compute; reflexivity]|]). constructor.
  - split; [|split].
    + apply (bool_decide_unpack _). by vm_compute.
    + apply (bool_decide_unpack _). by vm_compute.
    + intros u p Hu Hp. unfold day in *. repeat (apply elem_of_cons in Hu as [Hu|Hu]; [|]); try (inversion Hu; fail);
      repeat (apply elem_of_cons in Hp as [Hp|Hp]; [|]); try (inversion Hp; fail); injection Hu as ->; injection Hp as ->; cbn; discriminate.
Qed.
(** an output that is already available is not received again *)
Example C55_case_twice : snd (wallet_step (flat 2 1 1) 1 more false (fst wallet_day) (Receive (tu 4 1 0))) = Refused.
Proof. vm_compute. reflexivity. Qed.

(** ** What does not hold *)
(** The caller has to put the pool back: a selection that succeeded has taken its inputs, and when the change cannot be
    made afterwards (here there is no change address) they stay taken. *)
Theorem C55_put_back_refuted : exists h su sel e' st',
  lf_select (flat 2 1 1) (fun _ => natural) tnatural (final h) (0, 1)%N su = (st', SDone (e', sel)) /\
  (exists e2, single_change (flat 2 1 1) tnatural tnatural None e' (after sel None) = SFail e2) /\
  main_balance st' < main_balance (final h).
Proof.
  exists [Insert (tu 0 100 0)], (from_fixed [] [Uout "you" 50 [] None] None). eexists _, _, _.
  split; [vm_compute; reflexivity|]. split; [eexists; vm_compute; reflexivity|]. vm_compute. reflexivity.
Qed.

Definition all_C55 := (@C55_pool, @C55_main_value, @C55_tokens, @C55_change_positions, @C55_spent_once, @C55_refusals, @C55_put_back_refuted).
Print Assumptions all_C55.
