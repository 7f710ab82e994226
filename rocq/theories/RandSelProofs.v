(** Lemmas about RandModel: the whole selection, and when it cannot fail. *)
From Coq Require Import ZArith Lia.
From stdpp Require Import gmap strings list sorting.
From Verif Require Import ValueModel BalanceModel StoreModel StoreSpec StoreProofs SelModel SelSpec SelProofs
  RandModel RandProofs.
Open Scope Z_scope.

Lemma hash_union c1 c2 : NoDup (c1 ++ c2) -> foldl (fun l i => hash_insert i l) c1 c2 ≡ₚ c1 ++ c2.
Proof.
  intro N. destruct (hash_insert_all c2 c1) as [H1 H2]. apply NoDup_Permutation; [|done|].
  - apply H2. by apply NoDup_app in N as (? & _).
  - intro j. rewrite H1, elem_of_app. tauto.
Qed.
Lemma NoDup_app_r {A} (l k : list A) : NoDup (l ++ k) -> NoDup k.
Proof. intro N. by apply NoDup_app in N as (_ & _ & ?). Qed.
Lemma NoDup_app_l {A} (l k : list A) : NoDup (l ++ k) -> NoDup l.
Proof. intro N. by apply NoDup_app in N as (? & _). Qed.

Section Random.
  Context {E : Type} (est : estimator E) (rnd : nat -> nat) (chk : bool) (sc : Z) (inputs : list utxo).
  Notation bounded := (bounded inputs). Notation ledger := (ledger est). Notation fits := (fits chk sc inputs).

  (** what a step of the selection does: [new] leaves the available indices and joins the chosen ones, [billed] is what
      is charged *)
  Definition step_ok (fixed : list uout) (s : ri E) (chosen : list nat) (s' : ri E) (chosen' : list nat) : Prop :=
    exists new billed us, chosen' ≡ₚ chosen ++ new /\ new ++ r_av s' ≡ₚ r_av s /\ (forall i, i ∈ billed <-> i ∈ new) /\
      (NoDup fixed -> billed ≡ₚ new) /\ at_indices inputs billed = Some us /\ ledger s us s'.

  Lemma step_ok_refl fixed s chosen : step_ok fixed s chosen s chosen.
  Proof.
    exists [], [], []. rewrite app_nil_r. cbn [app at_indices]. split; [done|]. split; [done|]. split; [done|].
    split; [done|]. split; [done|]. by apply ledger_nil.
  Qed.
  Lemma step_ok_trans fixed s1 c1 s2 c2 s3 c3 : step_ok fixed s1 c1 s2 c2 -> step_ok fixed s2 c2 s3 c3 ->
    step_ok fixed s1 c1 s3 c3.
  Proof.
    intros (n1 & b1 & u1 & A1 & A2 & A3 & A4 & A5 & A6) (n2 & b2 & u2 & B1 & B2 & B3 & B4 & B5 & B6).
    exists (n1 ++ n2), (b1 ++ b2), (u1 ++ u2).
    split. { rewrite B1, A1. by rewrite app_assoc. }
    split. { rewrite <- A2, <- B2. by rewrite app_assoc. }
    split. { intro i. rewrite !elem_of_app, A3, B3. reflexivity. }
    split. { intro N. by rewrite (A4 N), (B4 N). }
    split; [by apply at_indices_app|]. by eapply ledger_trans.
  Qed.
  Lemma step_ok_nodup fixed s c s' c' : step_ok fixed s c s' c' -> NoDup (c ++ r_av s) -> NoDup (c' ++ r_av s').
  Proof.
    intros (n & b & u & A1 & A2 & _) N. rewrite A1, <- app_assoc, A2. done.
  Qed.
  Lemma step_ok_bounded fixed s c s' c' : step_ok fixed s c s' c' -> bounded (r_av s) -> bounded (r_av s').
  Proof. intros (n & b & u & A1 & A2 & _) B i Hi. apply B. rewrite <- A2. apply elem_of_app. by right. Qed.
  Lemma step_ok_sub fixed s c s' c' : step_ok fixed s c s' c' -> r_av s' ⊆+ r_av s.
  Proof. intros (n & b & u & A1 & A2 & _). rewrite <- A2. apply submseteq_inserts_l. reflexivity. Qed.

  Lemma helper_step by_in by_out fixed s chosen : NoDup (chosen ++ r_av s) -> bounded (r_av s) ->
    match ri_helper est rnd chk sc inputs by_in by_out fixed s with
    | SDone (s', c) => step_ok fixed s chosen s' (foldl (fun l i => hash_insert i l) chosen c)
    | SFail (_, av') => av' ⊆+ r_av s
    | SPanic => 0 < sc -> ~ fits fixed
    | SLoop => False
    end.
  Proof.
    intros N B. pose proof (helper_spec est rnd chk sc inputs by_in by_out fixed s (NoDup_app_r _ _ N) B) as H.
    destruct (ri_helper est rnd chk sc inputs by_in by_out fixed s) as [[s' c]|[e' av']| |]; try done.
    destruct H as (billed & us & H1 & H2 & H3 & H4 & H5 & H6).
    exists c, billed, us. split.
    { apply hash_union. rewrite <- H1, app_assoc in N. by apply NoDup_app_l in N. }
    split; [done|]. split; [done|]. split; [|done]. intro Nf. apply H4. unfold wanted. by apply NoDup_filter.
  Qed.

  Lemma tokens_step fixed l : forall s chosen, NoDup (chosen ++ r_av s) -> bounded (r_av s) ->
    match ri_tokens est rnd chk sc inputs l fixed s chosen with
    | SDone (s', c) => step_ok fixed s chosen s' c
    | SFail (_, av') => av' ⊆+ r_av s
    | SPanic => 0 < sc -> ~ fits fixed
    | SLoop => False
    end.
  Proof.
    induction l as [|[t a] l IH]; intros s chosen N B; cbn [ri_tokens]; [apply step_ok_refl|].
    pose proof (helper_step (fun u => find_qty (pair_token a) (u_assets u)) (fun o => find_qty (pair_token a) (o_assets o))
                  fixed s chosen N B) as H.
    destruct (ri_helper est rnd chk sc inputs _ _ fixed s) as [[s' c]|[e' av']| |]; try done.
    specialize (IH s' (foldl (fun l i => hash_insert i l) chosen c) (step_ok_nodup _ _ _ _ _ H N) (step_ok_bounded _ _ _ _ _ H B)).
    destruct (ri_tokens est rnd chk sc inputs l fixed s' _) as [[s'' c'']|[e' av']| |]; try done.
    - by eapply step_ok_trans.
    - rewrite IH. by eapply step_ok_sub.
  Qed.

  Lemma extra_step fixed out fuel : forall s chosen, NoDup (chosen ++ r_av s) -> bounded (r_av s) ->
    (length (r_av s) < fuel)%nat ->
    match ri_extra est rnd inputs fuel out s chosen with
    | SDone (s', c) => step_ok fixed s chosen s' c /\ out <= r_total s'
    | SFail (_, av') => av' ⊆+ r_av s
    | SPanic | SLoop => False
    end.
  Proof.
    induction fuel as [|fuel IH]; intros s chosen N B F; [lia|]. cbn [ri_extra].
    destruct (r_total s <? out) eqn:Eo.
    2: { apply Z.ltb_ge in Eo. split; [apply step_ok_refl|done]. }
    destruct (length (r_av s) =? 0)%nat eqn:El; [reflexivity|]. apply Nat.eqb_neq in El.
    set (r := (rnd (r_pos s) mod length (r_av s))%nat).
    assert (Hr : (r < length (r_av s))%nat) by (apply Nat.mod_upper_bound; lia).
    destruct (lookup_lt_is_Some_2 (r_av s) r Hr) as [i Hi]. rewrite Hi.
    assert (Hia : i ∈ r_av s) by (by eapply elem_of_list_lookup_2).
    pose proof (NoDup_app_r _ _ N) as NA.
    pose proof (set_remove_perm i (r_av s) NA Hia) as Pi.
    set (s1 := Ri (set_remove i (r_av s)) (r_est s) (r_assets s) (r_total s) (r_fee s) (S (r_pos s))).
    pose proof (charge_one est inputs s1 i (B i Hia)) as C.
    destruct (ri_charge est inputs s1 i) as [s'|[e' av']| |]; try done.
    2: { rewrite C. cbn [r_av s1]. rewrite <- Pi at 2. apply submseteq_cons. reflexivity. }
    destruct C as (us & U & L & A & P). cbn [r_av s1] in A.
    assert (St : step_ok fixed s chosen s' (hash_insert i chosen)).
    { exists [i], [i], us. split.
      - apply (hash_union chosen [i]). apply NoDup_app. split; [by apply NoDup_app_l in N|].
        split; [|apply NoDup_singleton]. intros x Hx Hi'. apply elem_of_list_singleton in Hi' as ->.
        apply NoDup_app in N as (_ & N & _). by apply (N i Hx).
      - split; [rewrite A; exact Pi|]. split; [done|]. split; [done|]. split; [done|].
        destruct L as (f & L1 & L2 & L3 & L4). exists f. done. }
    specialize (IH s' (hash_insert i chosen) (step_ok_nodup _ _ _ _ _ St N) (step_ok_bounded _ _ _ _ _ St B)).
    assert (Hl : (length (r_av s') < fuel)%nat).
    { rewrite A. apply Permutation_length in Pi. cbn [length] in Pi. lia. }
    specialize (IH Hl).
    destruct (ri_extra est rnd inputs fuel out s' (hash_insert i chosen)) as [[s'' c'']|[e'' av'']| |]; try done.
    - destruct IH as [St' Ho]. split; [by eapply step_ok_trans|done].
    - rewrite IH. by eapply step_ok_sub.
  Qed.

  Lemma select_spec ord hord av e su : (forall l, hord l ≡ₚ l) -> NoDup av -> bounded av ->
    match ri_select est rnd chk sc inputs ord hord av e su with
    | (av', SDone (e', r)) =>
        exists chosen billed us fee f,
          e_min_fee est e = Some fee /\
          at_indices inputs chosen = Some (se_chosen r) /\ chosen ++ av' ≡ₚ av /\
          (forall i, i ∈ billed <-> i ∈ chosen) /\ (NoDup (su_fixed_out su) -> billed ≡ₚ chosen) /\
          at_indices inputs billed = Some us /\ charge est e us = Some (e', f) /\
          r = Selection (su_in su + value_in us) (add_assets (su_in_assets su) (flat_map u_assets us))
                (su_out su) (su_out_assets su) (su_fixed_in su) (su_fixed_out su) (se_chosen r) [] (fee + f) /\
          su_out su <= su_in su + value_in us
    | (av', SFail _) => av' ⊆+ av
    | (_, SPanic) => 0 < sc -> ~ fits (su_fixed_out su)
    | (_, SLoop) => False
    end.
  Proof.
    intros Hh N B. unfold ri_select. destruct (e_min_fee est e) as [fee|] eqn:Ef; [|reflexivity].
    set (s0 := Ri av e (su_in_assets su) (su_in su) fee 0%nat).
    assert (N0 : NoDup ([] ++ r_av s0)) by done.
    pose proof (tokens_step (su_fixed_out su) (ord (su_out_assets su)) s0 [] N0 B) as H1.
    destruct (ri_tokens est rnd chk sc inputs (ord (su_out_assets su)) (su_fixed_out su) s0 []) as [[s1 c1]|[e1 av1]| |];
      try done.
    pose proof (step_ok_nodup _ _ _ _ _ H1 N0) as N1. pose proof (step_ok_bounded _ _ _ _ _ H1 B) as B1.
    pose proof (helper_step (fun u => Some (u_value u)) (fun o => Some (o_value o)) (su_fixed_out su) s1 c1 N1 B1) as H2.
    destruct (ri_helper est rnd chk sc inputs _ _ (su_fixed_out su) s1) as [[s2 c2]|[e2 av2]| |]; try done.
    2: { rewrite H2. by apply step_ok_sub in H1. }
    pose proof (step_ok_trans _ _ _ _ _ _ _ H1 H2) as H12.
    pose proof (step_ok_nodup _ _ _ _ _ H2 N1) as N2. pose proof (step_ok_bounded _ _ _ _ _ H2 B1) as B2.
    pose proof (extra_step (su_fixed_out su) (su_out su) (S (length (r_av s2))) s2 _ N2 B2 ltac:(lia)) as H3.
    destruct (ri_extra est rnd inputs (S (length (r_av s2))) (su_out su) s2 _) as [[s3 c3]|[e3 av3]| |]; try done.
    2: { rewrite H3. by apply step_ok_sub in H12. }
    destruct H3 as [H3 Ho]. pose proof (step_ok_trans _ _ _ _ _ _ _ H12 H3) as H.
    destruct H as (new & billed & us & A1 & A2 & A3 & A4 & A5 & (f & L1 & L2 & L3 & L4)).
    cbn [app s0 r_av r_est r_fee r_total r_assets] in *.
    assert (Bn : forall i, i ∈ hord c3 -> (i < length inputs)%nat).
    { intros i Hi. rewrite Hh, A1 in Hi. apply B. rewrite <- A2. apply elem_of_app. by left. }
    destruct (at_indices_some inputs (hord c3) Bn) as [us3 Hus3]. rewrite Hus3. cbn [se_chosen].
    exists (hord c3), billed, us, fee, f.
    split; [done|]. split; [done|]. split. { by rewrite Hh, A1. }
    split. { intro i. rewrite A3. rewrite Hh, A1. reflexivity. }
    split. { intro Nf. by rewrite (A4 Nf), Hh, A1. }
    split; [done|]. split; [done|]. split; [|lia]. f_equal; lia || done.
  Qed.

  (** ** When it cannot fail *)
  Definition worth (is : list nat) : Z := sumZ (map (fun i => match inputs !! i with Some u => u_value u | None => 0 end) is).
  Lemma worth_cons i u is : inputs !! i = Some u -> worth (i :: is) = u_value u + worth is.
  Proof. intro H. unfold worth. cbn. by rewrite H. Qed.
  Lemma worth_perm is js : is ≡ₚ js -> worth is = worth js.
  Proof. intro P. unfold worth. apply sumZ_perm. by apply Permutation_map. Qed.
  Lemma worth_at is us : at_indices inputs is = Some us -> worth is = value_in us.
  Proof.
    revert us. induction is as [|i is IH]; intros us; cbn [at_indices].
    - intros [= <-]. reflexivity.
    - destruct (inputs !! i) as [u|] eqn:Eu; [|done]. destruct (at_indices inputs is) as [vs|]; [|done].
      intros [= <-]. rewrite (worth_cons i u is Eu), (IH vs) by done. reflexivity.
  Qed.

  Notation main_in := (fun u : utxo => Some (u_value u)).
  Notation main_out := (fun o : uout => Some (o_value o)).

  Lemma cover_progress M o needed (e : E) fuel : forall added rel av pos asc,
    (forall i u, i ∈ rel -> inputs !! i = Some u -> 0 <= u_value u <= M) -> bounded rel -> (length rel < fuel)%nat ->
    match cover rnd inputs fuel e main_in o needed added rel av pos asc with
    | SDone (rel', _, _, _) =>
        (forall i, i ∈ rel' -> i ∈ rel) /\
        (if decide (added < needed) then worth rel - worth rel' < needed - added + M else rel' = rel)
    | SFail _ => worth rel + added < needed
    | SPanic | SLoop => False
    end.
  Proof.
    induction fuel as [|fuel IH]; intros added rel av pos asc HM B F; [lia|]. cbn [cover].
    destruct (added <? needed) eqn:Hn.
    2: { apply Z.ltb_ge in Hn. split; [done|]. rewrite decide_False by lia. done. }
    apply Z.ltb_lt in Hn.
    destruct rel as [|r0 rel0] eqn:Er. { unfold worth. cbn. lia. } rewrite <- Er in *.
    assert (Hlen : (0 < length rel)%nat) by (rewrite Er; simpl; lia).
    destruct (swap_remove_spec (rnd pos mod length rel) rel) as (i & rel' & -> & Q).
    { apply Nat.mod_upper_bound. lia. }
    assert (Hi : i ∈ rel) by (rewrite <- Q; left).
    destruct (lookup_lt_is_Some_2 inputs i (B i Hi)) as [u Hu]. rewrite Hu.
    assert (Hl : (S (length rel') = length rel)%nat) by (by rewrite <- Q).
    pose proof (HM i u Hi Hu) as Hb.
    assert (W : worth rel = u_value u + worth rel') by (rewrite <- (worth_perm _ _ Q); by apply worth_cons).
    specialize (IH (added + u_value u) rel' (set_remove i av) (S pos) (assoc_push o i asc)).
    assert (S' : forall j, j ∈ rel' -> j ∈ rel) by (intros j Hj; rewrite <- Q; by right).
    specialize (IH ltac:(intros j v Hj; apply HM; auto) ltac:(intros j Hj; auto) ltac:(lia)).
    destruct (cover rnd inputs fuel e main_in o needed (added + u_value u) rel' (set_remove i av) (S pos) (assoc_push o i asc))
      as [[[[rel'' av''] pos''] asc'']|[e' av'']| |]; try done; [|lia].
    destruct IH as [I1 I2]. split; [auto|]. rewrite decide_True by done.
    destruct (decide (added + u_value u < needed)) as [D|D]; [|subst rel'']; lia.
  Qed.

  Lemma cover_all_progress M (e : E) outs : forall rel av pos asc,
    0 <= M -> (forall o, o ∈ outs -> 0 <= o_value o) ->
    (forall i u, i ∈ rel -> inputs !! i = Some u -> 0 <= u_value u <= M) -> bounded rel ->
    value_out outs + Z.of_nat (length outs) * M <= worth rel ->
    match cover_all rnd inputs e main_in main_out outs rel av pos asc with SFail _ => False | _ => True end.
  Proof.
    induction outs as [|o outs IH]; intros rel av pos asc H0 Ho HM B W; cbn [cover_all]; [done|].
    assert (Hoo : 0 <= o_value o) by (apply Ho; left).
    assert (Hrest : 0 <= value_out outs).
    { clear -Ho. unfold value_out. induction outs as [|p outs IH]; cbn; [lia|].
      assert (0 <= o_value p) by (apply Ho; right; left).
      assert (0 <= sumZ (map o_value outs)); [|unfold sumZ in *; lia]. apply IH. intros q Hq. apply Ho.
      apply elem_of_cons in Hq as [ -> |Hq]; [left|right; by right]. }
    assert (Wc : value_out (o :: outs) = o_value o + value_out outs) by reflexivity.
    rewrite Wc in W. cbn [length] in W. rewrite Nat2Z.inj_succ in W.
    pose proof (cover_progress M o (o_value o) e (S (length rel)) 0 rel av pos asc HM B ltac:(lia)) as C.
    destruct (cover rnd inputs (S (length rel)) e main_in o (o_value o) 0 rel av pos asc)
      as [[[[rel' av'] pos'] asc']|[e' av']| |]; try done; [|nia].
    destruct C as [C1 C2]. apply IH; try done.
    - intros p Hp. apply Ho. by right.
    - intros i u Hi. apply HM. auto.
    - intros i Hi. auto.
    - destruct (decide (0 < o_value o)) as [D|D]; [|subst rel']; nia.
  Qed.

  Lemma charge_all_progress is : inputs_ok est -> forall s chosen, match charge_all est inputs is s chosen with SFail _ => False | _ => True end.
  Proof.
    intro Ok. induction is as [|i is IH]; intros s chosen; cbn [charge_all]; [done|]. unfold ri_charge.
    destruct (inputs !! i) as [u|]; [|done].
    destruct (Ok (r_est s)) as [_ Ok']. destruct (Ok' u) as [[f ->] Oka].
    destruct (e_add_in est (r_est s) u) as [e' b]. cbn in Oka. subst b. apply IH.
  Qed.
  Lemma finalize_progress outs asc : inputs_ok est -> (forall o, o ∈ outs -> o ∈ keys asc) ->
    forall s chosen, match finalize est inputs outs asc s chosen with SFail _ => False | _ => True end.
  Proof.
    intro Ok. induction outs as [|o outs IH]; intros K s chosen; cbn [finalize]; [done|].
    destruct (proj2 (assoc_get_key o asc)) as [is ->]; [apply K; left|].
    pose proof (charge_all_progress is Ok s chosen) as C.
    destruct (charge_all est inputs is s chosen) as [[s' c']|f| |]; try done. apply IH. intros p Hp. apply K. by right.
  Qed.

  Lemma helper_progress M fixed s : inputs_ok est -> NoDup (r_av s) -> bounded (r_av s) ->
    0 <= M -> (forall o, o ∈ fixed -> 0 < o_value o) ->
    (forall i u, i ∈ r_av s -> inputs !! i = Some u -> 0 <= u_value u <= M) ->
    value_out fixed + Z.of_nat (length fixed) * M <= worth (r_av s) ->
    match ri_helper est rnd chk sc inputs main_in main_out fixed s with SFail _ => False | _ => True end.
  Proof.
    intros Ok N B H0 Ho HM W. unfold ri_helper.
    assert (R : relevant inputs main_in (r_av s) = Some (r_av s)).
    { clear -B. induction (r_av s) as [|i av IH]; cbn [relevant]; [done|].
      destruct (lookup_lt_is_Some_2 inputs i) as [u ->]; [apply B; left|]. rewrite IH; [done|].
      intros j Hj. apply B. by right. }
    rewrite R.
    set (outs := sort_outputs _ _).
    assert (Pouts : outs ≡ₚ fixed).
    { unfold outs. rewrite sort_outputs_perm. clear. induction fixed as [|o fixed IH]; [done|].
      rewrite filter_cons_True by eauto. by f_equiv. }
    assert (Prev : rev outs ≡ₚ fixed) by (by rewrite <- Permutation_rev).
    assert (Hpos : forall o, o ∈ rev outs -> 0 < o_value o) by (intros o Hin; apply Ho; by rewrite <- Prev).
    assert (P0 : parts (r_av s) (r_av s) (r_av s) []).
    { split; [done| |done|done|apply NoDup_nil_2]. cbn. by rewrite app_nil_r. }
    assert (U0 : usable inputs main_in (r_av s)).
    { intros i Hi. destruct (lookup_lt_is_Some_2 inputs i (B i Hi)) as [u Hu]. exists u. eauto. }
    pose proof (cover_all_spec rnd inputs (r_av s) main_in main_out (r_est s) (rev outs) (r_av s) (r_av s) (r_pos s) [] P0 U0) as C.
    pose proof (cover_all_progress M (r_est s) (rev outs) (r_av s) (r_av s) (r_pos s) [] H0
                  ltac:(intros o Hin; specialize (Hpos o Hin); lia) HM B) as C'.
    assert (W' : value_out (rev outs) + Z.of_nat (length (rev outs)) * M <= worth (r_av s)).
    { rewrite (Permutation_length Prev). replace (value_out (rev outs)) with (value_out fixed); [done|].
      unfold value_out. apply sumZ_perm, Permutation_map. by symmetry. }
    specialize (C' W').
    destruct (cover_all rnd inputs (r_est s) main_in main_out (rev outs) (r_av s) (r_av s) (r_pos s) [])
      as [[[[rel' av'] pos'] asc]|[e' av']| |]; try done.
    destruct C as (P & U' & K & A).
    assert (Kall : forall o, o ∈ outs -> o ∈ keys asc).
    { intros o Hin. assert (Hr : o ∈ rev outs). { rewrite Prev. by rewrite <- Pouts. }
      apply (A o (o_value o) Hr eq_refl). auto. }
    destruct (length rel' =? 0)%nat eqn:El.
    { apply finalize_progress; done. }
    apply Nat.eqb_neq in El. assert (Hne : rel' <> []) by (intros ->; done).
    pose proof (improve_all_spec rnd chk sc inputs (r_av s) (r_est s) outs rel' av' pos' asc P Hne B) as I.
    destruct (improve_all rnd chk sc inputs (r_est s) outs rel' av' pos' asc) as [[[av'' pos''] asc']|[e' av'']| |]; try done.
    - destruct I as [_ KK]. apply finalize_progress; [done|]. intros o Hin. rewrite KK. auto.
    - destruct I as (_ & o & Hin & Hout). apply Hout. auto.
  Qed.

  (** ** An output that asks for nothing is never associated with an input *)
  Lemma cover_keys (e : E) by_in o needed fuel : forall added rel av pos asc, NoDup (keys asc) ->
    match cover rnd inputs fuel e by_in o needed added rel av pos asc with
    | SDone (_, _, _, asc') =>
        NoDup (keys asc') /\ forall p, p ∈ keys asc' -> p ∈ keys asc \/ (p = o /\ added < needed)
    | _ => True
    end.
  Proof.
    induction fuel as [|fuel IH]; intros added rel av pos asc N; cbn [cover];
      (destruct (added <? needed) eqn:En; [|split; [done|tauto]]); [done|]. apply Z.ltb_lt in En.
    destruct rel as [|r0 rel0]; [done|]. set (rel := r0 :: rel0).
    destruct (swap_remove (rnd pos mod length rel) rel) as [[i rel']|]; [|done].
    destruct (inputs !! i) as [u|]; [|done]. destruct (by_in u) as [q|]; [|done].
    destruct (assoc_push_keys o i asc N) as [N' K].
    specialize (IH (added + q) rel' (set_remove i av) (S pos) (assoc_push o i asc) N').
    destruct (cover rnd inputs fuel e by_in o needed (added + q) rel' (set_remove i av) (S pos) (assoc_push o i asc))
      as [[[[rel'' av''] pos''] asc'']|[e' av'']| |]; try done.
    destruct IH as [N'' K'']. split; [done|]. intros p Hp. destruct (K'' p Hp) as [H|[-> H]]; [|tauto].
    apply K in H. tauto.
  Qed.
  Lemma cover_all_keys (e : E) by_in by_out outs : forall rel av pos asc, NoDup (keys asc) ->
    match cover_all rnd inputs e by_in by_out outs rel av pos asc with
    | SDone (_, _, _, asc') =>
        NoDup (keys asc') /\ forall p, p ∈ keys asc' -> p ∈ keys asc \/ exists q, by_out p = Some q /\ 0 < q
    | _ => True
    end.
  Proof.
    induction outs as [|o outs IH]; intros rel av pos asc N; cbn [cover_all]; [split; [done|tauto]|].
    destruct (by_out o) as [needed|] eqn:Eo; [|done].
    pose proof (cover_keys e by_in o needed (S (length rel)) 0 rel av pos asc N) as C.
    destruct (cover rnd inputs (S (length rel)) e by_in o needed 0 rel av pos asc)
      as [[[[rel' av'] pos'] asc']|[e' av']| |]; try done.
    destruct C as [N' K']. specialize (IH rel' av' pos' asc' N').
    destruct (cover_all rnd inputs e by_in by_out outs rel' av' pos' asc')
      as [[[[rel'' av''] pos''] asc'']|[e'' av'']| |]; try done.
    destruct IH as [N'' K'']. split; [done|]. intros p Hp. destruct (K'' p Hp) as [H|H]; [|tauto].
    destruct (K' p H) as [H'|[-> H']]; [tauto|]. right. eauto.
  Qed.

  Lemma helper_nothing by_in by_out fixed s o q : NoDup (r_av s) -> bounded (r_av s) ->
    o ∈ fixed -> by_out o = Some q -> q <= 0 ->
    match ri_helper est rnd chk sc inputs by_in by_out fixed s with SDone _ => False | _ => True end.
  Proof.
    intros N B Ho Hq Hle. unfold ri_helper.
    destruct (relevant_spec inputs by_in (r_av s) B) as (rel & -> & U & S & NR). specialize (NR N).
    set (outs := sort_outputs _ _).
    assert (Hin : o ∈ outs).
    { unfold outs. rewrite sort_outputs_perm. apply elem_of_list_filter. split; [rewrite Hq; eauto|done]. }
    assert (P0 : parts (r_av s) rel (r_av s) []).
    { split; [done| |done|done|apply NoDup_nil_2]. cbn. by rewrite app_nil_r. }
    pose proof (cover_all_spec rnd inputs (r_av s) by_in by_out (r_est s) (rev outs) rel (r_av s) (r_pos s) [] P0 U) as C.
    pose proof (cover_all_keys (r_est s) by_in by_out (rev outs) rel (r_av s) (r_pos s) [] (NoDup_nil_2)) as K.
    destruct (cover_all rnd inputs (r_est s) by_in by_out (rev outs) rel (r_av s) (r_pos s) [])
      as [[[[rel' av'] pos'] asc]|[e' av']| |]; try done.
    destruct C as (P & _). destruct K as [_ K].
    assert (Hno : o ∉ keys asc).
    { intro F. destruct (K o F) as [F'|(q' & F1 & F2)]; [by apply elem_of_nil in F'|]. rewrite Hq in F1. injection F1 as <-. lia. }
    assert (Fin : forall asc' s' c, keys asc' = keys asc -> (forall i, i ∈ ids asc' -> (i < length inputs)%nat) ->
      match finalize est inputs outs asc' s' c with SDone _ => False | _ => True end).
    { intros asc' s' c Ek Bi. pose proof (finalize_spec est rnd inputs outs asc' s' c Bi) as F.
      destruct (finalize est inputs outs asc' s' c) as [[s'' c']|f| |]; try done.
      destruct F as (us & _ & _ & _ & _ & _ & _ & F). apply Hno. rewrite <- Ek. by apply F. }
    destruct (length rel' =? 0)%nat eqn:El.
    { apply Fin; [done|]. intros i Hi. apply B. rewrite <- (p_perm _ _ _ _ P). apply elem_of_app. by right. }
    apply Nat.eqb_neq in El. assert (Hne : rel' <> []) by (intros ->; done).
    pose proof (improve_all_spec rnd chk sc inputs (r_av s) (r_est s) outs rel' av' pos' asc P Hne B) as I.
    destruct (improve_all rnd chk sc inputs (r_est s) outs rel' av' pos' asc) as [[[av'' pos''] asc']|[e' av'']| |]; try done.
    destruct I as [Q KK]. apply Fin; [done|]. intros i Hi. apply B. rewrite <- Q. apply elem_of_app. by right.
  Qed.

  Lemma select_nothing ord hord av e su o : NoDup av -> bounded av -> o ∈ su_fixed_out su -> o_value o <= 0 ->
    match ri_select est rnd chk sc inputs ord hord av e su with (_, SDone _) => False | _ => True end.
  Proof.
    intros N B Ho Hle. unfold ri_select. destruct (e_min_fee est e) as [fee|]; [|done].
    set (s0 := Ri av e (su_in_assets su) (su_in su) fee 0%nat).
    assert (N0 : NoDup ([] ++ r_av s0)) by done.
    pose proof (tokens_step (su_fixed_out su) (ord (su_out_assets su)) s0 [] N0 B) as H1.
    destruct (ri_tokens est rnd chk sc inputs (ord (su_out_assets su)) (su_fixed_out su) s0 []) as [[s1 c1]|[e1 av1]| |];
      try done.
    pose proof (step_ok_nodup _ _ _ _ _ H1 N0) as N1. pose proof (step_ok_bounded _ _ _ _ _ H1 B) as B1.
    pose proof (helper_nothing (fun u => Some (u_value u)) (fun o => Some (o_value o)) (su_fixed_out su) s1 o (o_value o)
                  (NoDup_app_r _ _ N1) B1 Ho eq_refl Hle) as H2.
    destruct (ri_helper est rnd chk sc inputs _ _ (su_fixed_out su) s1) as [[s2 c2]|[e2 av2]| |]; done.
  Qed.

  (** ** Tokens under another name than policy:name are never looked for *)
  Lemma helper_ignored by_in by_out fixed s : bounded (r_av s) -> (forall o, o ∈ fixed -> by_out o = None) ->
    ri_helper est rnd chk sc inputs by_in by_out fixed s = SDone (s, []).
  Proof.
    intros B Ho. unfold ri_helper. destruct (relevant_spec inputs by_in (r_av s) B) as (rel & -> & _).
    assert (Hf : filter (fun o => is_Some (by_out o)) fixed = []).
    { clear -Ho. induction fixed as [|o fixed IH]; [done|]. rewrite filter_cons_False.
      - apply IH. intros p Hp. apply Ho. by right.
      - rewrite Ho by left. intros [? ?]. done. }
    rewrite Hf. cbn [sort_outputs foldr rev cover_all]. destruct s as [av e m t f p]. cbn [r_av r_est r_assets r_total r_fee r_pos].
    by destruct (length rel =? 0)%nat.
  Qed.
  Lemma tokens_ignored fixed l : forall s chosen, bounded (r_av s) ->
    (forall t a o, (t, a) ∈ l -> o ∈ fixed -> find_qty (pair_token a) (o_assets o) = None) ->
    ri_tokens est rnd chk sc inputs l fixed s chosen = SDone (s, chosen).
  Proof.
    induction l as [|[t a] l IH]; intros s chosen B H; cbn [ri_tokens]; [done|].
    rewrite helper_ignored; [|done|].
    - cbn [foldl]. apply IH; [done|]. intros t' a' o Hin. apply (H t'). by right.
    - intros o Ho. apply (H t a o); [left|done].
  Qed.

  Lemma select_progress M ord hord av e su before : fair_t ord -> (forall l, hord l ≡ₚ l) ->
    inputs_ok est -> NoDup av -> at_indices inputs av = Some before ->
    NoDup (su_fixed_out su) -> (forall o, o ∈ su_fixed_out su -> 0 < o_value o) ->
    (forall t a o, su_out_assets su !! t = Some a -> o ∈ su_fixed_out su -> find_qty (pair_token a) (o_assets o) = None) ->
    0 <= M -> (forall u, u ∈ before -> 0 <= u_value u <= M) ->
    value_out (su_fixed_out su) + Z.of_nat (length (su_fixed_out su)) * M <= value_in before ->
    su_out su <= su_in su + value_in before -> 0 < sc -> fits (su_fixed_out su) ->
    exists av' e' r, ri_select est rnd chk sc inputs ord hord av e su = (av', SDone (e', r)).
  Proof.
    intros Hord Hh Ok N Hb Nf Hpos Hign H0 HM W Wall Hs Hfit.
    pose proof (at_indices_bound inputs av before Hb) as B.
    pose proof (select_spec ord hord av e su Hh N B) as Sp.
    unfold ri_select in *. destruct (Ok e) as [[fee Hfee] _]. rewrite Hfee in *.
    set (s0 := Ri av e (su_in_assets su) (su_in su) fee 0%nat) in *.
    assert (T : ri_tokens est rnd chk sc inputs (ord (su_out_assets su)) (su_fixed_out su) s0 [] = SDone (s0, [])).
    { apply tokens_ignored; [done|]. intros t a o Hin. apply (Hign t a o). rewrite (Hord _) in Hin.
      by apply elem_of_map_to_list in Hin. }
    rewrite T in *.
    assert (N0 : NoDup ([] ++ r_av s0)) by done.
    assert (HM' : forall i u, i ∈ r_av s0 -> inputs !! i = Some u -> 0 <= u_value u <= M).
    { intros i u Hi Hu. apply HM. clear -Hb Hi Hu. cbn in Hi. revert before Hb.
      induction av as [|j av IH]; intros before Hb; [by apply elem_of_nil in Hi|]. cbn [at_indices] in Hb.
      destruct (inputs !! j) as [v|] eqn:Ej; [|done]. destruct (at_indices inputs av) as [us|]; [|done].
      injection Hb as <-. apply elem_of_cons in Hi as [ -> |Hi]; [rewrite Hu in Ej; injection Ej as ->; left|].
      right. by apply IH. }
    assert (W' : value_out (su_fixed_out su) + Z.of_nat (length (su_fixed_out su)) * M <= worth (r_av s0)).
    { cbn [r_av s0]. by rewrite (worth_at av before Hb). }
    pose proof (helper_progress M (su_fixed_out su) s0 Ok N B H0 Hpos HM' W') as Pr.
    pose proof (helper_step main_in main_out (su_fixed_out su) s0 [] N0 B) as H2.
    destruct (ri_helper est rnd chk sc inputs main_in main_out (su_fixed_out su) s0) as [[s2 c2]|[e2 av2]| |].
    2: done. 2: { exfalso. by apply (H2 Hs). } 2: done.
    pose proof (step_ok_nodup _ _ _ _ _ H2 N0) as N2. pose proof (step_ok_bounded _ _ _ _ _ H2 B) as B2.
    set (c := foldl (fun l i => hash_insert i l) [] c2) in *.
    assert (Ex : forall fuel s ch, step_ok (su_fixed_out su) s0 [] s ch -> (length (r_av s) < fuel)%nat ->
      match ri_extra est rnd inputs fuel (su_out su) s ch with SFail _ => False | _ => True end).
    { clear -Ok N Hb Nf Wall. intro fuel. induction fuel as [|fuel IH]; intros s ch St Hl; cbn [ri_extra];
        (destruct (r_total s <? su_out su) eqn:Et; [|done]); [done|].
      apply Z.ltb_lt in Et.
      pose proof St as (new & billed & us & A1 & A2 & A3 & A4 & A5 & (f & L1 & L2 & L3 & L4)).
      destruct (length (r_av s) =? 0)%nat eqn:El.
      { apply Nat.eqb_eq, nil_length_inv in El. rewrite El, app_nil_r in A2. cbn [r_av r_total s0] in *.
        assert (worth av = value_in us). { rewrite <- (worth_perm _ _ A2), <- (worth_perm _ _ (A4 Nf)). by apply worth_at. }
        pose proof (worth_at av before Hb). lia. }
      apply Nat.eqb_neq in El.
      destruct (r_av s !! (rnd (r_pos s) mod length (r_av s))%nat) as [i|] eqn:Ei; [|done].
      assert (Hia : i ∈ r_av s) by (by eapply elem_of_list_lookup_2).
      pose proof (at_indices_bound inputs av before Hb) as B.
      assert (N0 : NoDup ([] ++ r_av s0)) by done.
      pose proof (step_ok_nodup _ _ _ _ _ St N0) as N1. pose proof (step_ok_bounded _ _ _ _ _ St B) as B1.
      pose proof (set_remove_perm i (r_av s) (NoDup_app_r _ _ N1) Hia) as Pi.
      set (s1 := Ri (set_remove i (r_av s)) (r_est s) (r_assets s) (r_total s) (r_fee s) (S (r_pos s))).
      pose proof (charge_one est inputs s1 i (B1 i Hia)) as C.
      pose proof (charge_all_progress [i] Ok s1 []) as Cp. cbn [charge_all] in Cp.
      destruct (ri_charge est inputs s1 i) as [s'|[e' av']| |]; try done.
      destruct C as (us' & U & L & A & P). cbn [r_av s1] in A.
      apply IH.
      - eapply step_ok_trans; [exact St|]. exists [i], [i], us'. split.
        + apply (hash_union ch [i]). apply NoDup_app. split; [by apply NoDup_app_l in N1|].
          split; [|apply NoDup_singleton]. intros x Hx Hi'. apply elem_of_list_singleton in Hi' as ->.
          apply NoDup_app in N1 as (_ & N1 & _). by apply (N1 i Hx).
        + split; [rewrite A; exact Pi|]. split; [done|]. split; [done|]. split; [done|].
          destruct L as (g & M1 & M2 & M3 & M4). exists g. done.
      - rewrite A. apply Permutation_length in Pi. cbn [length] in Pi. lia. }
    specialize (Ex (S (length (r_av s2))) s2 c H2 ltac:(lia)).
    destruct (ri_extra est rnd inputs (S (length (r_av s2))) (su_out su) s2 c) as [[s3 c3]|[e3 av3]| |]; [|done|exfalso; by apply (Sp Hs)|done].
    destruct (at_indices inputs (hord c3)) as [us|]; [eauto|exfalso; by apply (Sp Hs)].
  Qed.
End Random.
