(** C45, continued: which outputs the thermostat tells its estimator of when it splits a change. *)
From Coq Require Import ZArith Lia.
From stdpp Require Import gmap strings list.
From Verif Require Import ValueModel BalanceModel BalanceProofs StoreModel StoreSpec StoreProofs SelModel SelSpec SelProofs SelLargestProofs SelProps ThermoModel ThermoProofs ThermoRunProofs ThermoFeeProofs ThermoShapeProofs ThermoExtraProofs ThermoCountProofs ThermoProps.
Open Scope Z_scope.

(** ** the specification *)
(** K e o: the estimator in state e knows of the output o. It knows of an output it has just accepted, and nothing it is asked or
    told later makes it forget one. *)
Definition remembers {E} (est : estimator E) (K : E -> uout -> Prop) : Prop :=
  (forall e o e', e_add_out est e o = (e', true) -> K e' o) /\
  (forall e o p e', K e o -> e_add_out est e p = (e', true) -> K e' o) /\
  (forall e o u e' b, K e o -> e_add_in est e u = (e', b) -> K e' o) /\
  (forall e o p, K e o -> K (fst (e_min_value est e p)) o).
(** the token a change output is for: the main token where it carries no other *)
Definition kind (o : uout) : token := match o_assets o with [] => MAIN | a :: _ => a_fp a end.

Section Told.
  Context {E : Type} (est : estimator E) (enum : nat -> enumeration) (sc : Z) (above : Z -> Z -> N -> bool) (chk : bool)
          (cfg : tconfig) (addr : option string) (outputs : list uout) (K : E -> uout -> Prop).
  Notation st := (thermo E).
  Context (HK : remembers est K).

  Definition known (s : st) : Prop := Forall (K (t_est s)) (t_extra s).

  Lemma add_out_known L s o (Q : st -> unit -> Prop) : known s ->
    (forall e, known (with_est s e) -> K e o -> Q (with_est s e) tt) -> wp L (add_out est s o) Q.
  Proof.
    intros H HQ. unfold add_out. destruct HK as (K1 & K2 & _). destruct (e_add_out est (t_est s) o) as [e' [|]] eqn:A; cbn [wp]; [|exact I].
    apply HQ; [|exact (K1 _ _ _ A)]. unfold known in *. cbn [with_est t_est t_extra].
    eapply Forall_impl; [exact H|]. intros p Hp. exact (K2 _ _ _ _ Hp A).
  Qed.
  Lemma min_value_known L s o (Q : st -> Z -> Prop) : known s ->
    (forall e v, known (with_est s e) -> Q (with_est s e) v) -> wp L (min_value est s o) Q.
  Proof.
    intros H HQ. unfold min_value. destruct HK as (_ & _ & _ & Hv).
    assert (X : Forall (K (fst (e_min_value est (t_est s) o))) (t_extra s)).
    { eapply Forall_impl; [exact H|]. intros p Hp. apply Hv, Hp. }
    destruct (e_min_value est (t_est s) o) as [e' [v|]]; cbn [wp]; [|exact I]. apply HQ. exact X.
  Qed.
  Lemma select_input_for_known s ut t : known s ->
    match select_input_for est enum s ut t with (s', ROk _) | (s', RErr) => known s' | _ => True end.
  Proof.
    intro H. unfold select_input_for. destruct (List.find _ _) as [u|]; [|exact H].
    unfold add_in. destruct HK as (_ & _ & Hi & _).
    destruct (e_add_in est (t_est s) u) as [e' b] eqn:A.
    assert (X : Forall (K e') (t_extra s)).
    { eapply Forall_impl; [exact H|]. intros p Hp. exact (Hi _ _ _ _ _ Hp A). }
    destruct b; cbn [bind]; [|exact X].
    destruct (store_remove ut (u_ptr u)) as [ut' [| |]]; auto.
  Qed.
  Lemma until_balanced_known t : forall fuel s ut, known s -> wp True (until_balanced est enum chk fuel s ut t) (fun s' _ => known s').
  Proof.
    induction fuel as [|fuel IH]; intros s ut H; cbn [until_balanced]; apply wp_bind, current_balance_of_wp;
      intros x _; destruct (in_debt x); cbn [wp]; auto.
    apply wp_bind. assert (X := select_input_for_known s ut t H).
    destruct (select_input_for est enum s ut t) as [s' [ut'| | |]]; cbn [wp]; auto.
  Qed.
  Lemma main_until_balanced_known : forall fuel s ut, known s -> wp True (main_until_balanced est enum cfg fuel s ut) (fun s' _ => known s').
  Proof.
    induction fuel as [|fuel IH]; intros s ut H; cbn [main_until_balanced]; apply wp_bind, current_balance_wp;
      intros x _; destruct (in_debt _); cbn [wp]; auto.
    apply wp_bind. assert (X := select_input_for_known s ut (c_main cfg) H).
    destruct (select_input_for est enum s ut (c_main cfg)) as [s' [ut'| | |]]; cbn [wp]; auto.
  Qed.
  Lemma extra_inputs_known l : forall fuel empty i s ut, known s ->
    wp True (extra_inputs est enum sc chk cfg outputs fuel l empty i s ut) (fun s' _ => known s').
  Proof.
    induction fuel as [|fuel IH]; intros empty i s ut H; cbn [extra_inputs]; apply wp_bind, remaining_wp; intro n;
      destruct (n =? 0)%N; cbn [wp]; auto.
    destruct (l !! i) as [t|]; [|exact I]. destruct (empty !! i) as [[|]|]; [| |exact I].
    - destruct (forallb id empty); [exact H|apply IH, H].
    - destruct (N.of_nat _ <=? c_num cfg)%N; [apply IH, H|]. assert (X := select_input_for_known s ut t H).
      destruct (select_input_for est enum s ut t) as [s1 [ut1| | |]]; cbn [wp]; auto.
  Qed.
  Lemma change_entry_known L s ad t w : known s -> wp L (change_entry est s ad t w) (fun s' _ => known s').
  Proof.
    intro H. unfold change_entry. destruct (t_changes s !! t) as [x|]; [exact H|].
    apply wp_bind. eapply min_value_known; [exact H|]. intros e v H1.
    destruct (w <? v); apply wp_bind, wp_lift; intros f _; destruct (_ <? v + f); apply wp_bind;
      (eapply add_out_known; [exact H1|]); intros e' H2 _; exact H2.
  Qed.
  Lemma balance_excess_of_known L s ut t : known s -> wp L (balance_excess_of est chk cfg addr s ut t) (fun s' _ => known s').
  Proof.
    intro H. unfold balance_excess_of. apply wp_bind, current_balance_of_wp. intros x _. destruct x as [| |excess]; [exact H|exact H|].
    apply wp_bind, wp_lift. intros ad _. apply wp_bind, current_balance_wp. intros f _. cbn zeta. apply wp_bind.
    eapply wp_mono; [apply change_entry_known, H|]. cbn beta. intros s1 o T. destruct (credit _ _ _ _) as [o'|]; [|exact I].
    cbn [wp]. unfold clamp. destruct (_ <? _); [|destruct (_ <? _)]; exact T.
  Qed.
  Lemma fund_assets_known : forall l s ut, known s -> wp True (fund_assets est enum chk cfg addr l s ut) (fun s' _ => known s').
  Proof.
    induction l as [|t l IH]; intros s ut H; [exact H|]. cbn [fund_assets].
    apply wp_bind. eapply wp_mono; [apply until_balanced_known, H|]. cbn beta. intros s1 ut1 H1.
    apply wp_bind. eapply wp_mono; [apply balance_excess_of_known, H1|]. cbn beta. intros s2 [] H2. apply IH, H2.
  Qed.
  Lemma return_excess_known L : forall l s ut, known s -> wp L (return_excess est chk cfg addr l s ut) (fun s' _ => known s').
  Proof.
    induction l as [|t l IH]; intros s ut H; [exact H|]. cbn [return_excess].
    apply wp_bind. eapply wp_mono; [apply balance_excess_of_known, H|]. cbn beta. intros s2 [] H2. apply IH, H2.
  Qed.
  Lemma balance_excess_known L s : known s -> wp L (balance_excess est cfg addr s) (fun s' _ => known s').
  Proof.
    intro H. unfold balance_excess. apply wp_bind, current_balance_wp. intros f _.
    destruct (zbal_sub_value _ _) as [| |x]; [exact H|exact H|]. apply wp_bind, wp_lift. intros ad _.
    destruct (t_changes s !! c_main cfg) as [o|]; [exact H|].
    apply wp_bind. eapply min_value_known; [exact H|]. intros e v H1. destruct (_ <? v); [exact H1|]. apply wp_bind, wp_lift. intros g _.
    destruct (_ <? v + g); [exact H1|]. apply wp_bind. eapply add_out_known; [exact H1|]. intros e' H2 _. exact H2.
  Qed.
  Lemma split_one_known L ut s t o : known s -> wp L (split_one est sc above cfg ut s t o) (fun s' _ => known s').
  Proof.
    intros H. unfold split_one. destruct (get_balance_of ut t) as [total|]; [|exact H].
    destruct (o_assets o) as [|x l].
    - destruct (bool_decide _); [|exact H]. destruct (c_num cfg =? 0)%N; [exact I|].
      apply wp_bind, wp_lift. intros f _. cbn zeta. destruct (_ || _); [exact H|]. destruct (above _ _ _); [|exact H].
      unfold add_out. destruct HK as (K1 & K2 & _). cbn [push_extra t_est gain put with_bal].
      destruct (e_add_out est _ _) as [e' [|]] eqn:A; cbn [wp]; [|exact I].
      unfold known in *. cbn [with_est push_extra t_est t_extra gain put with_bal] in *. apply Forall_app. split.
      + eapply Forall_impl; [exact H|]. intros p Hp. exact (K2 _ _ _ _ Hp A).
      + apply Forall_singleton. exact (K1 _ _ _ A).
    - destruct (c_num_assets cfg =? 0)%N; [exact I|]. destruct (above _ _ _); [|exact H]. cbn zeta.
      apply wp_bind, wp_lift. intros f _. destruct (_ || _); [exact H|].
      apply wp_bind. eapply (add_out_known L); [exact H|]. intros e T Ke. cbn [wp].
      unfold known in *. cbn [push_extra t_est t_extra with_est] in *. apply Forall_app. split; [exact T|].
      apply Forall_singleton. exact Ke.
  Qed.
  Lemma split_all_known ut : forall l s, known s -> wp True (split_all est sc above cfg ut l s) (fun s' _ => known s').
  Proof.
    induction l as [|[t o] l IH]; intros s M; [exact M|]. cbn [split_all]. apply wp_bind.
    eapply wp_mono; [apply split_one_known, M|]. cbn beta. intros s1 [] H1. apply IH, H1.
  Qed.
  Lemma select_known ordc keys avail s : known s ->
    wp True (select est enum sc above chk cfg addr outputs ordc keys avail s) (fun s' _ => known s').
  Proof.
    intros H. unfold select. apply wp_bind. eapply wp_mono; [apply fund_assets_known, H|]. cbn beta. intros s1 ut1 H1.
    apply wp_bind. eapply wp_mono; [apply main_until_balanced_known, H1|]. cbn beta. intros s2 ut2 H2. cbn zeta.
    apply wp_bind. eapply wp_mono; [apply extra_inputs_known, H2|]. cbn beta. intros s3 ut3 H3.
    apply wp_bind. eapply wp_mono; [apply return_excess_known, H3|]. cbn beta. intros s4 [] H4.
    apply wp_bind. eapply wp_mono; [apply balance_excess_known, H4|]. cbn beta. intros s5 [] H5.
    apply wp_bind. eapply wp_mono; [apply split_all_known, H5|]. cbn beta. intros s6 [] H6. exact H6.
  Qed.
End Told.

(** The changes are at most one for each token, followed by those split off, and the estimator has been told of each of the latter
    exactly as it is returned: same address, same main value, same tokens. *)
Theorem C45_splits_told {E} (est : estimator E) enum sc above chk cfg ord ordb ordc ordv avail e su ut e' r K :
  0 < sc -> fees_nonneg est -> fair_t ord -> fair_t ordb -> fair_t ordc -> fair_t ordv -> c_main cfg = MAIN -> plain_setup su ->
  remembers est K ->
  th_select est enum sc above chk cfg ord ordb ordc ordv avail e su = (ut, SDone (e', r)) ->
  exists one split, se_changes r = one ++ split /\ NoDup (map kind one) /\ Forall (K e') split.
Proof.
  intros Hsc Hfe Ho Hob Hoc Hov Hm [P1 P2] HK T.
  set (keys := map fst (ordb (asset_balances ord (su_in_assets su) (su_out_assets su)))).
  assert (KM : c_main cfg ∉ keys).
  { rewrite Hm. unfold keys. rewrite keys_of by exact Hob. rewrite (asset_balances_keys ord _ _ _ Ho), P1, P2. intros [[? Q]|[? Q]]; discriminate. }
  assert (Kn : keys = [] \/ exists t, is_Some (t_abal (th_start ord e su) !! t)).
  { destruct keys as [|k ks] eqn:Ek; [left; reflexivity|right]. exists k. cbn [th_start t_abal]. rewrite <- (keys_of ordb) by exact Hob. fold keys. rewrite Ek. left. }
  destruct (th_select_done _ _ _ _ _ _ _ _ _ _ _ _ _ _ _ _ T) as (s & S & -> & D & ->). fold keys in S.
  assert (W := select_neat est enum sc above chk cfg (su_change su) (su_fixed_out su) (st_dict avail) keys Hsc Hfe ordc avail (th_start ord e su) Hoc KM).
  rewrite S in W. cbn [wp] in W.
  destruct W as [N1 N2]. { split; [split; [intros t o Q; cbn [th_start t_changes] in Q; rewrite lookup_empty in Q; discriminate|constructor]|]. split; [reflexivity|exact Kn]. }
  assert (W := select_known est enum sc above chk cfg (su_change su) (su_fixed_out su) K HK ordc keys avail (th_start ord e su)).
  rewrite S in W. cbn [wp] in W. specialize (W ltac:(constructor)).
  cbn [se_changes]. eexists _, _. split; [reflexivity|]. split; [|exact W].
  assert (M : forall p, p ∈ ordv (t_changes s) -> kind (snd p) = fst p).
  { intros [t o] Hin. rewrite (Hov (t_changes s)), elem_of_map_to_list in Hin. cbn [fst snd]. unfold kind.
    destruct (N1 _ _ Hin) as [_ [[-> ->]|[_ (p & n & q & _ & -> & _)]]]; [symmetry; exact Hm|reflexivity]. }
  rewrite map_map, (map_ext_in (fun p => kind (snd p)) fst) by (intros p Hp; apply M, elem_of_list_In, Hp).
  rewrite (Permutation_map fst (Hov _)). apply NoDup_fst_map_to_list.
Qed.

(** ** a case: an estimator that keeps the list of the outputs it accepted *)
Definition keeping : estimator (list uout) :=
  Estimator (fun e => Some (2 + Z.of_nat (length e))) (fun _ _ => Some 1) (fun e _ => (e, true)) (fun _ _ => Some 2)
    (fun e o => (o :: e, true)) (fun e _ => (e, Some 0)) (fun _ => Some 0%N) (fun _ => Some 100%N).
Example keeping_remembers : remembers keeping (fun e o => o ∈ e).
Proof.
  repeat split; cbn.
  - intros e o e' [= <-]. left.
  - intros e o p e' H [= <-]. right. exact H.
  - intros e o u e' b H [= <- <-]. exact H.
  - intros e o p H. exact H.
Qed.
Definition keeping_run :=
  th_select keeping (fun _ => natural) 1 more false cfg_usual tnatural tnatural tnatural tnatural (final h_usual) []
    (from_fixed [] [out_usual] (Some "me")).

Definition a_part (v q : Z) := Uout "me" v [Asset "p" "a" "A" q] None.
(** the token change is split in two: 31 stay and the estimator is told of the 30 split off *)
Example C45_splits_told_case : fees_nonneg keeping /\ c_main cfg_usual = MAIN /\ plain_setup (from_fixed [] [out_usual] (Some "me")) /\
  exists ut e' r, keeping_run = (ut, SDone (e', r)) /\
    se_changes r = [Uout "me" 65 [] None; a_part 9 31; a_part 9 30] /\ a_part 9 30 ∈ e'.
Proof.
  split. { repeat split; cbn; intros; simplify_eq; lia. }
  split; [reflexivity|]. split; [split; vm_compute; reflexivity|].
  destruct keeping_run as [ut [[e' r]| | |]] eqn:R; [|exfalso|exfalso|exfalso].
  2,3,4: assert (X : match keeping_run with (_, SDone _) => true | _ => false end = true) by (vm_compute; reflexivity); rewrite R in X; discriminate.
  exists ut, e', r. split; [reflexivity|].
  assert (X : match keeping_run with (_, SDone (e', r)) => (se_changes r, e') | _ => ([], []) end =
    ([Uout "me" 65 [] None; a_part 9 31; a_part 9 30], [a_part 9 30; Uout "me" 65 [] None; Uout "me" 81 [] None])) by (vm_compute; reflexivity).
  rewrite R in X. injection X as -> ->. split; [reflexivity|]. left.
Qed.

(** Of the other changes it is not: the change of a token is announced before its token is put into it, so the estimator believes in
    an output without tokens, and prices that. *)
Theorem C45_changes_told_refuted : exists ut e' r o, keeping_run = (ut, SDone (e', r)) /\
  o ∈ se_changes r /\ o_assets o <> [] /\ o ∉ e' /\
  length (List.filter (fun o => negb (length (o_assets o) =? 0)%nat) (se_changes r)) = 2%nat /\
  length (List.filter (fun o => negb (length (o_assets o) =? 0)%nat) e') = 1%nat.
Proof.
  destruct keeping_run as [ut [[e' r]| | |]] eqn:R; [|exfalso|exfalso|exfalso].
  2,3,4: assert (X : match keeping_run with (_, SDone _) => true | _ => false end = true) by (vm_compute; reflexivity); rewrite R in X; discriminate.
  exists ut, e', r, (a_part 9 31). split; [reflexivity|].
  assert (X : match keeping_run with (_, SDone (e', r)) => (se_changes r, e') | _ => ([], []) end =
    ([Uout "me" 65 [] None; a_part 9 31; a_part 9 30], [a_part 9 30; Uout "me" 65 [] None; Uout "me" 81 [] None])) by (vm_compute; reflexivity).
  rewrite R in X. injection X as -> ->.
  split; [right; left|]. split; [discriminate|]. split; [|split; reflexivity].
  rewrite !elem_of_cons, elem_of_nil. intros [Q|[Q|[Q|[]]]]; discriminate Q.
Qed.

Definition C45_told_all := (@C45_splits_told, @C45_changes_told_refuted).
Print Assumptions C45_told_all.
