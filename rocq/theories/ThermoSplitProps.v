(** C45, continued: which changes the thermostat divides in two, and how. *)
From Coq Require Import ZArith Lia.
From stdpp Require Import gmap strings list.
From Verif Require Import ValueModel BalanceModel BalanceProofs StoreModel StoreSpec StoreProofs SelModel SelSpec SelProofs SelLargestProofs SelProps ThermoModel ThermoProofs ThermoRunProofs ThermoFeeProofs ThermoShapeProofs ThermoExtraProofs ThermoCountProofs ThermoProps ThermoToldProps.
Open Scope Z_scope.

(** ** the specification *)
(** half of an amount, in whole units ([sc] is one unit); amounts under two units have none *)
Definition whole_half (sc v : Z) : Z := if v <? 2 * sc then 0 else v / (2 * sc) * sc.
(** [rest] and [part] are what became of one change with the fee [f] for an output.  The part is half of it, less half of the fee; the
    rest pays the fee. *)
Definition halved (sc f : Z) (rest part : uout) : Prop :=
  o_value part = whole_half sc (o_value rest + o_value part + f) - whole_half sc f /\
  o_addr part = o_addr rest /\ o_extra part = o_extra rest /\
  match o_assets part, o_assets rest with
  | [], [] => True
  | [a], [b] => (a_policy a, a_name a, a_fp a) = (a_policy b, a_name b, a_fp b) /\ a_qty a = whole_half sc (a_qty b + a_qty a)
  | _, _ => False
  end.
(** the change of a token with the quantity [q], or of the main token with the value [q], when the available outputs that are not
    chosen hold [total] of it: it is above its share of all there will be.  The main value is compared without the fee. *)
Definition too_large (above : Z -> Z -> N -> bool) (cfg : tconfig) (total q f : Z) (main : bool) : bool :=
  if main then above (q - f) (total + q) (c_num cfg) else above q (total + q) (c_num_assets cfg).
Definition is_main (o : uout) : bool := match o_assets o with [] => true | _ => false end.
Definition amount (o : uout) : Z := match o_assets o with [] => o_value o | a :: _ => a_qty a end.
(** [part] was split off rightly: some of its token is left, and the fee [f] of an output is less than half of the value *)
Definition due {E} (est : estimator E) sc above cfg (ut : store) (rest part : uout) : Prop :=
  exists total f e o, get_balance_of ut (kind part) = Some total /\ e_fee_out est e o = Some f /\ halved sc f rest part /\
    f < whole_half sc (o_value rest + o_value part + f) /\
    too_large above cfg total (amount rest + amount part + if is_main part then f else 0) f (is_main part) = true.
(** [o] was left whole rightly *)
Definition not_due {E} (est : estimator E) sc above cfg (ut : store) (o : uout) : Prop :=
  get_balance_of ut (kind o) = None \/
  (exists e p f, e_fee_out est e p = Some f /\ whole_half sc (o_value o) <= f) \/
  exists total f, get_balance_of ut (kind o) = Some total /\ too_large above cfg total (amount o) f (is_main o) = false /\
    (is_main o = true -> exists e p, e_fee_out est e p = Some f).

Definition opt {A} (o : option A) : list A := match o with Some a => [a] | None => [] end.
Lemma wp_and {S A} L (p : S * res A) (Q R : S -> A -> Prop) : wp L p Q -> wp L p R -> wp L p (fun s a => Q s a /\ R s a).
Proof. destruct p as [s [a| | |]]; cbn; auto. Qed.

Section Split.
  Context {E : Type} (est : estimator E) (enum : nat -> enumeration) (sc : Z) (above : Z -> Z -> N -> bool) (chk : bool)
          (cfg : tconfig) (addr : option string) (outputs : list uout).
  Notation st := (thermo E).

  (** nothing is split off before the end *)
  Definition bare (s : st) : Prop := t_extra s = [].
  Lemma select_input_for_bare s ut t : bare s ->
    match select_input_for est enum s ut t with (s', ROk _) | (s', RErr) => bare s' | _ => True end.
  Proof.
    intro H. unfold select_input_for. destruct (List.find _ _) as [u|]; [|exact H].
    unfold add_in. destruct (e_add_in est (t_est s) u) as [e' [|]]; cbn [bind]; [|exact H].
    destruct (store_remove ut (u_ptr u)) as [ut' [| |]]; auto.
  Qed.
  Lemma until_balanced_bare t : forall fuel s ut, bare s -> wp True (until_balanced est enum chk fuel s ut t) (fun s' _ => bare s').
  Proof.
    induction fuel as [|fuel IH]; intros s ut H; cbn [until_balanced]; apply wp_bind, current_balance_of_wp;
      intros x _; destruct (in_debt x); cbn [wp]; auto.
    apply wp_bind. assert (X := select_input_for_bare s ut t H).
    destruct (select_input_for est enum s ut t) as [s' [ut'| | |]]; cbn [wp]; auto.
  Qed.
  Lemma main_until_balanced_bare : forall fuel s ut, bare s -> wp True (main_until_balanced est enum cfg fuel s ut) (fun s' _ => bare s').
  Proof.
    induction fuel as [|fuel IH]; intros s ut H; cbn [main_until_balanced]; apply wp_bind, current_balance_wp;
      intros x _; destruct (in_debt _); cbn [wp]; auto.
    apply wp_bind. assert (X := select_input_for_bare s ut (c_main cfg) H).
    destruct (select_input_for est enum s ut (c_main cfg)) as [s' [ut'| | |]]; cbn [wp]; auto.
  Qed.
  Lemma extra_inputs_bare l : forall fuel empty i s ut, bare s ->
    wp True (extra_inputs est enum sc chk cfg outputs fuel l empty i s ut) (fun s' _ => bare s').
  Proof.
    induction fuel as [|fuel IH]; intros empty i s ut H; cbn [extra_inputs]; apply wp_bind, remaining_wp; intro n;
      destruct (n =? 0)%N; cbn [wp]; auto.
    destruct (l !! i) as [t|]; [|exact I]. destruct (empty !! i) as [[|]|]; [| |exact I].
    - destruct (forallb id empty); [exact H|apply IH, H].
    - destruct (N.of_nat _ <=? c_num cfg)%N; [apply IH, H|]. assert (X := select_input_for_bare s ut t H).
      destruct (select_input_for est enum s ut t) as [s1 [ut1| | |]]; cbn [wp]; auto.
  Qed.
  Lemma change_entry_bare L s ad t w : bare s -> wp L (change_entry est s ad t w) (fun s' _ => bare s').
  Proof.
    intro H. unfold change_entry. destruct (t_changes s !! t) as [x|]; [exact H|].
    apply wp_bind, min_value_wp. intros e v _.
    destruct (w <? v); apply wp_bind, wp_lift; intros f _; destruct (_ <? v + f); apply wp_bind, add_out_wp; intro e'; exact H.
  Qed.
  Lemma balance_excess_of_bare L s ut t : bare s -> wp L (balance_excess_of est chk cfg addr s ut t) (fun s' _ => bare s').
  Proof.
    intro H. unfold balance_excess_of. apply wp_bind, current_balance_of_wp. intros x _. destruct x as [| |excess]; [exact H|exact H|].
    apply wp_bind, wp_lift. intros ad _. apply wp_bind, current_balance_wp. intros f _. cbn zeta. apply wp_bind.
    eapply wp_mono; [apply change_entry_bare, H|]. cbn beta. intros s1 o T. destruct (credit _ _ _ _) as [o'|]; [|exact I].
    cbn [wp]. unfold clamp. destruct (_ <? _); [|destruct (_ <? _)]; exact T.
  Qed.
  Lemma fund_assets_bare : forall l s ut, bare s -> wp True (fund_assets est enum chk cfg addr l s ut) (fun s' _ => bare s').
  Proof.
    induction l as [|t l IH]; intros s ut H; [exact H|]. cbn [fund_assets].
    apply wp_bind. eapply wp_mono; [apply until_balanced_bare, H|]. cbn beta. intros s1 ut1 H1.
    apply wp_bind. eapply wp_mono; [apply balance_excess_of_bare, H1|]. cbn beta. intros s2 [] H2. apply IH, H2.
  Qed.
  Lemma return_excess_bare L : forall l s ut, bare s -> wp L (return_excess est chk cfg addr l s ut) (fun s' _ => bare s').
  Proof.
    induction l as [|t l IH]; intros s ut H; [exact H|]. cbn [return_excess].
    apply wp_bind. eapply wp_mono; [apply balance_excess_of_bare, H|]. cbn beta. intros s2 [] H2. apply IH, H2.
  Qed.
  Lemma balance_excess_bare L s : bare s -> wp L (balance_excess est cfg addr s) (fun s' _ => bare s').
  Proof.
    intro H. unfold balance_excess. apply wp_bind, current_balance_wp. intros f _.
    destruct (zbal_sub_value _ _) as [| |x]; [exact H|exact H|]. apply wp_bind, wp_lift. intros ad _.
    destruct (t_changes s !! c_main cfg) as [o|]; [exact H|].
    apply wp_bind, min_value_wp. intros e v _. destruct (_ <? v); [exact H|]. apply wp_bind, wp_lift. intros g _.
    destruct (_ <? v + g); [exact H|]. apply wp_bind, add_out_wp. intro e'. exact H.
  Qed.

  Context (d : gmap token (string * string)) (keys : list token) (Hsc : 0 < sc) (Hfees : fees_nonneg est) (Hmain : c_main cfg = MAIN).


  Lemma whole_le v : 0 <= v -> whole_half sc v <= v.
  Proof.
    intro. unfold whole_half. destruct (Z.ltb_spec v (2 * sc)); [lia|]. pose proof (Z.mul_div_le v (2 * sc) ltac:(lia)).
    assert (0 <= v / (2 * sc)) by (apply Z.div_pos; lia). nia.
  Qed.

  (** one change: what became of it *)
  Definition became (ut : store) (rest : uout) (part : option uout) : Prop :=
    match part with Some p => kind p = kind rest /\ due est sc above cfg ut rest p | None => not_due est sc above cfg ut rest end.
  Lemma split_one_became L ut s t o : neat cfg addr d s -> t_changes s !! t = Some o ->
    wp L (split_one est sc above cfg ut s t o) (fun s' _ => exists rest part,
      t_changes s' = <[t := rest]> (t_changes s) /\ t_extra s' = t_extra s ++ opt part /\ kind rest = t /\ became ut rest part).
  Proof.
    intros N Ho. destruct (proj1 N _ _ Ho) as [Mo Co].
    assert (Hk : kind o = t).
    { unfold kind. destruct Co as [[-> ->]|[_ (p & n & q & _ & -> & _)]]; [symmetry; exact Hmain|reflexivity]. }
    assert (Stay : not_due est sc above cfg ut o -> exists rest part,
      t_changes s = <[t := rest]> (t_changes s) /\ t_extra s = t_extra s ++ opt part /\ kind rest = t /\ became ut rest part).
    { intro X. exists o, None. rewrite insert_id by exact Ho. cbn [opt]. rewrite app_nil_r. auto. }
    unfold split_one. destruct (get_balance_of ut t) as [total|] eqn:G; [|apply Stay; left; rewrite Hk; exact G].
    destruct Co as [[Et Oa]|[Et (p & n & q & D & Oa & _)]]; rewrite Oa.
    - rewrite bool_decide_eq_true_2 by exact Et. destruct (c_num cfg =? 0)%N; [exact I|]. apply wp_bind, wp_lift. intros f Hf. cbn zeta.
      destruct (_ || _) eqn:C.
      { apply Stay. right. left. exists (t_est s), o, f. split; [exact Hf|]. assert (0 <= f) by (apply (proj2 (proj2 (Hfees _))) in Hf; exact Hf).
        change (half sc) with (whole_half sc) in C. pose proof (whole_le f ltac:(lia)) as Y. apply orb_true_iff in C as [C|C]; apply Z.leb_le in C; lia. }
      apply orb_false_elim in C as [C1 C2]. apply Z.leb_gt in C1, C2.
      destruct (above _ _ _) eqn:A.
      + apply add_out_wp. intro e. eexists _, (Some _). split; [reflexivity|]. split; [reflexivity|].
        split; [unfold kind; cbn [o_assets]; symmetry; rewrite Et; exact Hmain|]. split; [reflexivity|].
        exists total, f, (t_est s), o. split; [|split; [exact Hf|]].
        { unfold kind. cbn [o_assets]. rewrite <- Hmain, <- Et. exact G. }
        unfold halved, too_large, amount, is_main. cbn [o_value o_addr o_extra o_assets]. change (half sc) with (whole_half sc) in *.
        set (v := whole_half sc (o_value o)) in *. set (g := whole_half sc f) in *.
        replace (o_value o - (v - g) - f + (v - g) + f) with (o_value o) by lia.
        fold v g. repeat split; [lia|]. exact A.
      + apply Stay. right. right. exists total, f. rewrite Hk. split; [exact G|]. unfold too_large, amount, is_main. rewrite Oa. eauto.
    - destruct (c_num_assets cfg =? 0)%N; [exact I|]. cbn [a_qty a_policy a_name a_fp].
      destruct (above _ _ _) eqn:A.
      + cbn zeta. apply wp_bind, wp_lift. intros f Hf. assert (0 <= f) by (apply (proj2 (proj2 (Hfees _))) in Hf; exact Hf).
        destruct (_ || _) eqn:C.
        * eexists _, None. cbn [opt put t_changes t_extra]. rewrite app_nil_r. split; [reflexivity|]. split; [reflexivity|]. split; [reflexivity|].
          right. left. eexists _, _, f. split; [exact Hf|]. cbn [o_value]. change (half sc) with (whole_half sc) in C.
          pose proof (whole_le f ltac:(lia)) as Y. apply orb_true_iff in C as [C|C]; apply Z.leb_le in C; lia.
        * apply orb_false_elim in C as [C1 C2]. apply Z.leb_gt in C1, C2. apply wp_bind, add_out_wp. intro e. cbn [wp].
          eexists _, (Some _). cbn [put t_changes t_extra with_est push_extra gain with_bal]. rewrite insert_insert. split; [reflexivity|]. split; [reflexivity|].
          split; [reflexivity|]. split; [reflexivity|]. eexists total, f, _, _. split; [exact G|]. split; [exact Hf|].
          unfold halved, too_large, amount, is_main. cbn [o_value o_addr o_extra o_assets a_qty a_policy a_name a_fp]. change (half sc) with (whole_half sc) in *.
          set (v := whole_half sc (o_value o)) in *. set (g := whole_half sc f) in *. set (w := whole_half sc q) in *.
          replace (o_value o - (v - g) - f + (v - g) + f) with (o_value o) by lia. replace (q - w + w) with q by lia.
          fold v g w. rewrite Z.add_0_r. repeat split; [lia|]. exact A.
      + apply Stay. right. right. exists total, 0. rewrite Hk. split; [exact G|]. unfold too_large, amount, is_main. rewrite Oa. split; [exact A|discriminate].
  Qed.

  Lemma split_all_became ut : forall l s, NoDup (map fst l) -> (forall t o, (t, o) ∈ l -> t_changes s !! t = Some o) -> neat cfg addr d s ->
    wp True (split_all est sc above cfg ut l s) (fun s' _ => exists parts,
      t_extra s' = t_extra s ++ (parts ≫= opt) /\
      (forall t, t ∉ map fst l -> t_changes s' !! t = t_changes s !! t) /\
      Forall2 (fun t part => exists rest, t_changes s' !! t = Some rest /\ kind rest = t /\ became ut rest part) (map fst l) parts).
  Proof.
    induction l as [|[t o] l IH]; intros s HN Hl M.
    { exists []. cbn. rewrite app_nil_r. auto. }
    cbn [split_all map fst] in *. apply NoDup_cons in HN as [Hnot HN].
    assert (Ho := Hl t o ltac:(left)). apply wp_bind.
    assert (W1 := split_one_neat est sc above cfg addr d Hsc Hfees True ut s t o M Ho).
    assert (W2 := split_one_became True ut s t o M Ho).
    destruct (split_one est sc above cfg ut s t o) as [s1 [[]| | |]]; cbn [wp] in *; auto.
    destruct W2 as (rest & part & C1 & X1 & K1 & B1). eapply wp_mono; [apply (IH s1 HN); [|exact W1]|].
    { intros t' o' Hin. assert (P1 := Hl t' o' ltac:(right; exact Hin)).
      rewrite C1, lookup_insert_ne; [exact P1|]. intros ->. apply Hnot, elem_of_list_fmap. exists (t', o'). auto. }
    cbn beta. intros s2 [] (parts & X2 & O2 & F2). exists (part :: parts). split; [|split].
    - rewrite X2, X1, <- app_assoc. reflexivity.
    - intros t' Hn. apply not_elem_of_cons in Hn as [Hn1 Hn2]. rewrite O2 by exact Hn2. rewrite C1. apply lookup_insert_ne. congruence.
    - constructor; [|exact F2]. exists rest. rewrite O2 by exact Hnot. rewrite C1, lookup_insert. auto.
  Qed.

  Lemma select_became ordc avail s : fair_t ordc -> c_main cfg ∉ keys -> tidy cfg addr d keys s avail -> bare s ->
    wp True (select est enum sc above chk cfg addr outputs ordc keys avail s) (fun s' ut => exists ks parts, 
      NoDup ks /\ (forall t, t ∈ ks <-> is_Some (t_changes s' !! t)) /\ t_extra s' = parts ≫= opt /\
      Forall2 (fun t part => exists rest, t_changes s' !! t = Some rest /\ kind rest = t /\ became ut rest part) ks parts).
  Proof.
    intros Ho Hk H B. unfold select. apply wp_bind. eapply wp_mono; [apply wp_and; [apply fund_assets_neat; [exact Hk|exact H]|apply fund_assets_bare, B]|]. cbn beta. intros s1 ut1 [H1 B1].
    apply wp_bind. eapply wp_mono; [apply wp_and; [apply main_until_balanced_neat, H1|apply main_until_balanced_bare, B1]|]. cbn beta. intros s2 ut2 [H2 B2]. cbn zeta.
    match goal with |- context [extra_fuel ?X _] => set (l := X) end.
    assert (Hl : keys = [] /\ l = [c_main cfg] \/ l = keys).
    { unfold l. destruct H2 as (_ & _ & [->|[t Ht]]); [left; split; [reflexivity|rewrite orb_true_r; reflexivity]|].
      destruct keys as [|k ks]; [left; split; [reflexivity|rewrite orb_true_r; reflexivity]|right].
      destruct (Nat.eqb_spec (size (t_abal s2)) 0) as [Em|Em]; [|reflexivity].
      apply map_size_empty_iff in Em. rewrite Em, lookup_empty in Ht. destruct Ht; discriminate. }
    apply wp_bind. eapply wp_mono; [apply wp_and; [apply extra_inputs_neat, H2|apply extra_inputs_bare, B2]|]. cbn beta. intros s3 ut3 [H3 B3].
    match goal with |- context [return_excess _ _ _ _ ?X] => set (l' := X) end.
    assert (Hl' : c_main cfg ∉ l').
    { unfold l'. destruct Hl as [[_ ->]| -> ].
      - cbn [length Nat.eqb andb head]. rewrite (bool_decide_eq_true_2 (Some _ = Some _)) by reflexivity. rewrite orb_true_r. apply not_elem_of_nil.
      - destruct (_ || _); [|exact Hk]. intro Q. apply Hk. clear -Q. induction keys as [|k ks IH]; [exact Q|].
        destruct ks as [|k2 ks]; [inversion Q|]. change (removelast (k :: k2 :: ks)) with (k :: removelast (k2 :: ks)) in Q.
        apply elem_of_cons in Q as [->|Q]; [left|right; apply IH, Q]. }
    apply wp_bind. eapply wp_mono; [apply wp_and; [apply return_excess_neat; [exact Hl'|exact H3]|apply return_excess_bare, B3]|]. cbn beta. intros s4 [] [H4 B4].
    apply wp_bind. eapply wp_mono; [apply wp_and; [apply balance_excess_neat, H4|apply balance_excess_bare, B4]|]. cbn beta. intros s5 [] [H5 B5].
    assert (Nd : NoDup (map fst (ordc (t_changes s5)))) by (rewrite (Permutation_map fst (Ho _)); apply NoDup_fst_map_to_list).
    assert (Hin : forall t o, (t, o) ∈ ordc (t_changes s5) -> t_changes s5 !! t = Some o).
    { intros t o Hin. rewrite (Ho _), elem_of_map_to_list in Hin. exact Hin. }
    apply wp_bind. eapply wp_mono; [apply (split_all_became _ (ordc (t_changes s5)) s5 Nd Hin H5)|].
    cbn beta. intros s6 [] (parts & X & O & F). cbn [wp]. exists (map fst (ordc (t_changes s5))), parts. split; [exact Nd|]. split; [|split; [rewrite X, B5; reflexivity|exact F]].
    intro t. split.
    - intro Ht. apply elem_of_list_lookup in Ht as [i Hi]. destruct (Forall2_lookup_l _ _ _ _ _ F Hi) as (part & _ & rest & -> & _). eauto.
    - intros [o Q]. destruct (decide (t ∈ map fst (ordc (t_changes s5)))) as [Y|Y]; [exact Y|]. exfalso. rewrite O in Q by exact Y. apply Y.
      apply elem_of_list_fmap. exists (t, o). split; [reflexivity|]. rewrite (Ho _), elem_of_map_to_list. exact Q.
  Qed.
End Split.

(** The changes are at most one for each token, followed by at most one more for each: the part split off from it.  A part was split
    off exactly where it is due, and is half of the change.  [ut] has the available outputs that were not chosen. *)
Theorem C45_splits_due {E} (est : estimator E) enum sc above chk cfg ord ordb ordc ordv avail e su ut e' r :
  0 < sc -> fees_nonneg est -> fair_t ord -> fair_t ordb -> fair_t ordc -> fair_t ordv -> c_main cfg = MAIN -> plain_setup su ->
  th_select est enum sc above chk cfg ord ordb ordc ordv avail e su = (ut, SDone (e', r)) ->
  exists one split, se_changes r = one ++ split /\ NoDup (map kind one) /\ NoDup (map kind split) /\
    (forall part, part ∈ split -> exists rest, rest ∈ one /\ kind rest = kind part /\ due est sc above cfg ut rest part) /\
    (forall o, o ∈ one -> kind o ∉ map kind split -> not_due est sc above cfg ut o).
Proof.
  intros Hsc Hfe Ho Hob Hoc Hov Hm [P1 P2] T.
  set (keys := map fst (ordb (asset_balances ord (su_in_assets su) (su_out_assets su)))).
  assert (KM : c_main cfg ∉ keys).
  { rewrite Hm. unfold keys. rewrite keys_of by exact Hob. rewrite (asset_balances_keys ord _ _ _ Ho), P1, P2. intros [[? Q]|[? Q]]; discriminate. }
  assert (Kn : keys = [] \/ exists t, is_Some (t_abal (th_start ord e su) !! t)).
  { destruct keys as [|k ks] eqn:Ek; [left; reflexivity|right]. exists k. cbn [th_start t_abal]. rewrite <- (keys_of ordb) by exact Hob. fold keys. rewrite Ek. left. }
  destruct (th_select_done _ _ _ _ _ _ _ _ _ _ _ _ _ _ _ _ T) as (s & S & -> & D & ->). fold keys in S.
  assert (W := select_became est enum sc above chk cfg (su_change su) (su_fixed_out su) (st_dict avail) keys Hsc Hfe Hm ordc avail (th_start ord e su) Hoc KM).
  rewrite S in W. cbn [wp] in W.
  destruct W as (ks & parts & Nk & Hks & X & F).
  { split; [split; [intros t o Q; cbn [th_start t_changes] in Q; rewrite lookup_empty in Q; discriminate|constructor]|]. split; [reflexivity|exact Kn]. }
  { reflexivity. }
  cbn [se_changes]. exists (map snd (ordv (t_changes s))), (t_extra s). split; [reflexivity|].
  assert (In1 : forall t o, (t, o) ∈ ordv (t_changes s) <-> t_changes s !! t = Some o) by (intros t o; rewrite (Hov (t_changes s)); apply elem_of_map_to_list).
  assert (Kd : forall t o, t_changes s !! t = Some o -> kind o = t).
  { intros t o Q. assert (Ht : t ∈ ks) by (apply Hks; eauto). apply elem_of_list_lookup in Ht as [i Hi].
    destruct (Forall2_lookup_l _ _ _ _ _ F Hi) as (part & _ & rest & Q' & Q2 & _). congruence. }
  assert (M : forall p, p ∈ ordv (t_changes s) -> kind (snd p) = fst p) by (intros [t o] Hin; apply In1 in Hin; apply Kd, Hin).
  split; [|split; [|split]].
  - rewrite map_map, (map_ext_in (fun p => kind (snd p)) fst) by (intros p Hp; apply M, elem_of_list_In, Hp).
    rewrite (Permutation_map fst (Hov _)). apply NoDup_fst_map_to_list.
  - rewrite X. clear -F Nk. revert parts F. induction ks as [|k ks IH]; intros parts F; inversion F as [|? part ? parts' (rest & Q & K & B) F']; subst; [constructor|].
    apply NoDup_cons in Nk as [Nk1 Nk2]. destruct part as [p|]; cbn [mbind list_bind opt]; [|apply IH; assumption].
    cbn [app map]. apply NoDup_cons. split; [|apply IH; assumption]. intro Hin. apply elem_of_list_fmap in Hin as (p2 & E2 & Hin).
    apply elem_of_list_bind in Hin as ([p2'|] & Hp & Hin); [|inversion Hp]. apply elem_of_list_singleton in Hp as ->.
    apply elem_of_list_lookup in Hin as [i Hi]. destruct (Forall2_lookup_r _ _ _ _ _ F' Hi) as (t & Ht & rest2 & _ & K2 & [K3 _]).
    apply Nk1, elem_of_list_lookup. exists i. destruct B as [B _]. congruence.
  - intros part Hin. rewrite X in Hin. apply elem_of_list_bind in Hin as ([p2|] & Hp & Hin); [|inversion Hp]. apply elem_of_list_singleton in Hp as ->.
    apply elem_of_list_lookup in Hin as [i Hi]. destruct (Forall2_lookup_r _ _ _ _ _ F Hi) as (t & Ht & rest & Q & K2 & [K3 B]).
    exists rest. split; [|split; [congruence|exact B]]. apply elem_of_list_fmap. exists (t, rest). split; [reflexivity|]. apply In1, Q.
  - intros o Hin Hn. apply elem_of_list_fmap in Hin as ([t o'] & -> & Hin). cbn [snd] in *. apply In1 in Hin. pose proof (Kd _ _ Hin) as K1.
    assert (Ht : t ∈ ks) by (apply Hks; eauto). apply elem_of_list_lookup in Ht as [i Hi].
    destruct (Forall2_lookup_l _ _ _ _ _ F Hi) as ([p|] & Hp & rest & Q & K2 & B).
    + exfalso. destruct B as [B _]. apply Hn. apply elem_of_list_fmap. exists p. split; [congruence|]. rewrite X. apply elem_of_list_bind.
      exists (Some p). split; [left|]. apply elem_of_list_lookup. eauto.
    + replace o' with rest by congruence. exact B.
Qed.

(** Non-vacuity: the run of C45_splits_told_case.  8 A are left, so of the change of 61 A, more than half of the 69, 30 are split off;
    197 of the main token are left, so that the change of 65 is not more than half of all and stays whole. *)
Example C45_splits_due_case : fees_nonneg keeping /\ c_main cfg_usual = MAIN /\ plain_setup (from_fixed [] [out_usual] (Some "me")) /\
  exists ut e' r, keeping_run = (ut, SDone (e', r)) /\ se_changes r = [Uout "me" 65 [] None; a_part 9 31] ++ [a_part 9 30] /\
    get_balance_of ut "A" = Some 8 /\ get_balance_of ut MAIN = Some 197 /\
    too_large more cfg_usual 8 61 0 false = true /\ halved 1 2 (a_part 9 31) (a_part 9 30) /\ too_large more cfg_usual 197 65 2 true = false.
Proof.
  destruct C45_splits_told_case as (H1 & H2 & H3 & ut & e' & r & R & Hr & _). split; [exact H1|]. split; [exact H2|]. split; [exact H3|].
  exists ut, e', r. split; [exact R|]. split; [exact Hr|].
  assert (X : match keeping_run with (ut, SDone _) => (get_balance_of ut "A", get_balance_of ut MAIN) | _ => (None, None) end = (Some 8, Some 197)) by (vm_compute; reflexivity).
  rewrite R in X. injection X as -> ->. repeat split; vm_compute; reflexivity.
Qed.

Definition all_ThermoSplitProps := (@C45_splits_due, C45_splits_due_case).
Print Assumptions all_ThermoSplitProps.
