(** Proofs about what the thermostat tells its estimator: every chosen input and every change output, once. *)
From Coq Require Import ZArith Lia.
From stdpp Require Import gmap strings list.
From Verif Require Import ValueModel BalanceModel BalanceProofs StoreModel StoreSpec StoreProofs SelModel SelSpec SelProofs SelLargestProofs ThermoModel ThermoProofs ThermoRunProofs.
Open Scope Z_scope.

(** a quantity of the estimator that grows by a with each input and by b with each output that it accepts, and that neither an
    input it refuses nor a question about an output changes *)
Definition counted {E} (est : estimator E) (m : E -> option Z) (a b : Z) : Prop := forall e f, m e = Some f ->
  (forall u e', e_add_in est e u = (e', true) -> m e' = Some (f + a)) /\
  (forall u e', e_add_in est e u = (e', false) -> m e' = Some f) /\
  (forall o e', e_add_out est e o = (e', true) -> m e' = Some (f + b)) /\
  (forall o, m (fst (e_min_value est e o)) = Some f).

Section Count.
  Context {E : Type} (est : estimator E) (enum : nat -> enumeration) (sc : Z) (above : Z -> Z -> N -> bool) (chk : bool)
          (cfg : tconfig) (addr : option string) (outputs : list uout) (m : E -> option Z) (a b f0 : Z).
  Notation st := (thermo E).
  Context (Hm : counted est m a b).

  Definition changes_of (s : st) : Z := Z.of_nat (size (t_changes s) + length (t_extra s)).
  (** d: outputs the estimator knows of but the changes do not hold yet *)
  Definition told (d : Z) (s : st) : Prop :=
    m (t_est s) = Some (f0 + a * Z.of_nat (length (t_sel s)) + b * (changes_of s + d)).

  Lemma add_out_told L d s o (Q : st -> unit -> Prop) : told d s ->
    (forall e, told (d + 1) (with_est s e) -> Q (with_est s e) tt) -> wp L (add_out est s o) Q.
  Proof.
    intros H HQ. unfold add_out. destruct (Hm _ _ H) as (_ & _ & Ho & _). destruct (e_add_out est (t_est s) o) as [e' [|]] eqn:A; cbn [wp]; [|exact I].
    apply Ho in A as He. apply HQ.
    unfold told. cbn [with_est t_est t_sel]. rewrite He. f_equal. change (changes_of (with_est s e')) with (changes_of s). lia.
  Qed.
  Lemma min_value_told L d s o (Q : st -> Z -> Prop) : told d s ->
    (forall e v, told d (with_est s e) -> Q (with_est s e) v) -> wp L (min_value est s o) Q.
  Proof.
    intros H HQ. unfold min_value. destruct (Hm _ _ H) as (_ & _ & _ & Hv). specialize (Hv o).
    destruct (e_min_value est (t_est s) o) as [e' [v|]]; cbn [wp]; [|exact I]. apply HQ. exact Hv.
  Qed.

  Lemma select_input_for_told s ut t : told 0 s ->
    match select_input_for est enum s ut t with (s', ROk _) | (s', RErr) => told 0 s' | _ => True end.
  Proof.
    intro H. unfold select_input_for. destruct (List.find _ _) as [u|]; [|exact H].
    unfold add_in. destruct (Hm _ _ H) as (Hi & Hr & _). destruct (e_add_in est (t_est s) u) as [e' [|]] eqn:A; cbn [bind].
    2: { apply Hr in A. exact A. }
    apply Hi in A as He.
    assert (T : told 0 (add_input (with_est s e') u)).
    { unfold told. cbn [add_input with_est t_est t_sel]. rewrite He. f_equal. rewrite app_length. cbn [length].
      change (changes_of (add_input (with_est s e') u)) with (changes_of s). lia. }
    destruct (store_remove ut (u_ptr u)) as [ut' [| |]]; auto.
  Qed.
  Lemma until_balanced_told t : forall fuel s ut, told 0 s -> wp True (until_balanced est enum chk fuel s ut t) (fun s' _ => told 0 s').
  Proof.
    induction fuel as [|fuel IH]; intros s ut H; cbn [until_balanced]; apply wp_bind, current_balance_of_wp;
      intros x _; destruct (in_debt x); cbn [wp]; auto.
    apply wp_bind. assert (X := select_input_for_told s ut t H).
    destruct (select_input_for est enum s ut t) as [s' [ut'| | |]]; cbn [wp]; auto.
  Qed.
  Lemma main_until_balanced_told : forall fuel s ut, told 0 s -> wp True (main_until_balanced est enum cfg fuel s ut) (fun s' _ => told 0 s').
  Proof.
    induction fuel as [|fuel IH]; intros s ut H; cbn [main_until_balanced]; apply wp_bind, current_balance_wp;
      intros x _; destruct (in_debt _); cbn [wp]; auto.
    apply wp_bind. assert (X := select_input_for_told s ut (c_main cfg) H).
    destruct (select_input_for est enum s ut (c_main cfg)) as [s' [ut'| | |]]; cbn [wp]; auto.
  Qed.
  Lemma extra_inputs_told l : forall fuel empty i s ut, told 0 s ->
    wp True (extra_inputs est enum sc chk cfg outputs fuel l empty i s ut) (fun s' _ => told 0 s').
  Proof.
    induction fuel as [|fuel IH]; intros empty i s ut H; cbn [extra_inputs]; apply wp_bind, remaining_wp; intro n;
      destruct (n =? 0)%N; cbn [wp]; auto.
    destruct (l !! i) as [t|]; [|exact I]. destruct (empty !! i) as [[|]|]; [| |exact I].
    - destruct (forallb id empty); [exact H|apply IH, H].
    - destruct (N.of_nat _ <=? c_num cfg)%N; [apply IH, H|]. assert (X := select_input_for_told s ut t H).
      destruct (select_input_for est enum s ut t) as [s1 [ut1| | |]]; cbn [wp]; auto.
  Qed.

  (** storing a change under a token: a new one settles the difference, another one replaces what is there *)
  Lemma told_put s s' t o : t_changes s' = <[t := o]> (t_changes s) -> t_extra s' = t_extra s -> t_sel s' = t_sel s -> t_est s' = t_est s ->
    told (match t_changes s !! t with Some _ => 0 | None => 1 end) s -> told 0 s'.
  Proof.
    intros A B C D. unfold told, changes_of. rewrite A, B, C, D. intros ->. f_equal.
    destruct (t_changes s !! t) eqn:L; [rewrite map_size_insert_Some by eauto|rewrite map_size_insert_None by exact L]; lia.
  Qed.
  Lemma change_entry_told L s ad t w : told 0 s ->
    wp L (change_entry est s ad t w) (fun s' _ => t_changes s' = t_changes s /\ told (match t_changes s !! t with Some _ => 0 | None => 1 end) s').
  Proof.
    intro H. unfold change_entry. destruct (t_changes s !! t) as [x|]; [split; [reflexivity|exact H]|].
    apply wp_bind. eapply min_value_told; [exact H|]. intros e v H1.
    destruct (w <? v); apply wp_bind, wp_lift; intros f _; destruct (_ <? v + f); apply wp_bind;
      (eapply add_out_told; [exact H1|]); intros e' H2; (split; [reflexivity|exact H2]).
  Qed.
  Lemma balance_excess_of_told L s ut t : told 0 s -> wp L (balance_excess_of est chk cfg addr s ut t) (fun s' _ => told 0 s').
  Proof.
    intro H. unfold balance_excess_of. apply wp_bind, current_balance_of_wp. intros x _. destruct x as [| |excess]; [exact H|exact H|].
    apply wp_bind, wp_lift. intros ad _. apply wp_bind, current_balance_wp. intros f _. cbn zeta. apply wp_bind.
    eapply wp_mono; [apply change_entry_told, H|]. cbn beta. intros s1 o [C T]. destruct (credit _ _ _ _) as [o'|]; [|exact I].
    cbn [wp]. rewrite <- C in T.
    unfold clamp. destruct (_ <? _); [|destruct (_ <? _)]; (eapply told_put; [reflexivity|reflexivity|reflexivity|reflexivity|exact T]).
  Qed.
  Lemma fund_assets_told : forall l s ut, told 0 s -> wp True (fund_assets est enum chk cfg addr l s ut) (fun s' _ => told 0 s').
  Proof.
    induction l as [|t l IH]; intros s ut H; [exact H|]. cbn [fund_assets].
    apply wp_bind. eapply wp_mono; [apply until_balanced_told, H|]. cbn beta. intros s1 ut1 H1.
    apply wp_bind. eapply wp_mono; [apply balance_excess_of_told, H1|]. cbn beta. intros s2 [] H2. apply IH, H2.
  Qed.
  Lemma return_excess_told L : forall l s ut, told 0 s -> wp L (return_excess est chk cfg addr l s ut) (fun s' _ => told 0 s').
  Proof.
    induction l as [|t l IH]; intros s ut H; [exact H|]. cbn [return_excess].
    apply wp_bind. eapply wp_mono; [apply balance_excess_of_told, H|]. cbn beta. intros s2 [] H2. apply IH, H2.
  Qed.
  Lemma balance_excess_told L s : told 0 s -> wp L (balance_excess est cfg addr s) (fun s' _ => told 0 s').
  Proof.
    intro H. unfold balance_excess. apply wp_bind, current_balance_wp. intros f _.
    destruct (zbal_sub_value _ _) as [| |x]; [exact H|exact H|]. apply wp_bind, wp_lift. intros ad _.
    destruct (t_changes s !! c_main cfg) as [o|] eqn:C.
    - cbn [wp]. eapply told_put; [reflexivity|reflexivity|reflexivity|reflexivity|]. cbn [pay with_bal t_changes]. rewrite C. exact H.
    - apply wp_bind. eapply min_value_told; [exact H|]. intros e v H1. destruct (_ <? v); [exact H1|]. apply wp_bind, wp_lift. intros g _.
      destruct (_ <? v + g); [exact H1|]. apply wp_bind. eapply add_out_told; [exact H1|]. intros e' H2. cbn [wp].
      eapply told_put; [reflexivity|reflexivity|reflexivity|reflexivity|]. cbn [pay with_bal with_est t_changes]. rewrite C. exact H2.
  Qed.

  Lemma told_extra s o : told 1 s -> told 0 (push_extra s o).
  Proof.
    unfold told, changes_of. cbn [push_extra t_est t_sel t_changes t_extra]. intros ->. f_equal. rewrite app_length. cbn [length]. lia.
  Qed.
  Lemma told_replace s t o o' : t_changes s !! t = Some o -> told 0 s -> told 0 (put s t o').
  Proof. intros C H. eapply told_put; [reflexivity|reflexivity|reflexivity|reflexivity|]. rewrite C. exact H. Qed.
  Lemma split_one_told L ut s t o : told 0 s -> t_changes s !! t = Some o ->
    wp L (split_one est sc above cfg ut s t o) (fun s' _ => told 0 s').
  Proof.
    intros H Ho. unfold split_one. destruct (get_balance_of ut t) as [total|]; [|exact H].
    destruct (o_assets o) as [|x l].
    - destruct (bool_decide _); [|exact H]. destruct (c_num cfg =? 0)%N; [exact I|].
      apply wp_bind, wp_lift. intros f _. cbn zeta. destruct (_ || _); [exact H|]. destruct (above _ _ _); [|exact H].
      eapply (add_out_told L (-1)).
      + match goal with |- told _ (push_extra ?S0 _) => assert (T : told 0 S0) by (exact (told_replace _ _ _ _ Ho H)) end.
        unfold told, changes_of in *. cbn [push_extra t_est t_sel t_changes t_extra] in *. rewrite T. f_equal. rewrite app_length. cbn [length]. lia.
      + intros e T. exact T.
    - destruct (c_num_assets cfg =? 0)%N; [exact I|]. destruct (above _ _ _); [|exact H]. cbn zeta.
      assert (H0 := told_replace _ _ _ (Uout (o_addr o) (o_value o) (Asset (a_policy x) (a_name x) (a_fp x) (a_qty x - half sc (a_qty x)) :: l) (o_extra o)) Ho H).
      apply wp_bind, wp_lift. intros f _. destruct (_ || _); [exact H0|].
      apply wp_bind. eapply (add_out_told L 0).
      + eapply told_replace; [|exact H0]. cbn [put t_changes]. apply lookup_insert.
      + intros e T. cbn [wp]. apply told_extra, T.
  Qed.
  Lemma split_all_told ut : forall l s, NoDup (map fst l) -> (forall t o, (t, o) ∈ l -> t_changes s !! t = Some o) -> told 0 s ->
    wp True (split_all est sc above cfg ut l s) (fun s' _ => told 0 s').
  Proof.
    induction l as [|[t o] l IH]; intros s HN Hl M; [exact M|].
    cbn [split_all map fst] in *. apply NoDup_cons in HN as [Hnot HN].
    assert (Ho := Hl t o ltac:(left)). apply wp_bind.
    assert (W1 := split_one_told True ut s t o M Ho).
    assert (W2 := split_one_changes est sc above cfg True ut s t o Ho).
    destruct (split_one est sc above cfg ut s t o) as [s1 [[]| | |]]; cbn [wp] in *; auto.
    destruct W2 as [o1 C1]. apply (IH s1 HN); [|exact W1].
    intros t' o' Hin. assert (P1 := Hl t' o' ltac:(right; exact Hin)).
    rewrite C1, lookup_insert_ne; [exact P1|]. intros ->. apply Hnot, elem_of_list_fmap. exists (t', o'). auto.
  Qed.

  Lemma select_told ordc keys avail s : fair_t ordc -> told 0 s ->
    wp True (select est enum sc above chk cfg addr outputs ordc keys avail s) (fun s' _ => told 0 s').
  Proof.
    intros Ho H. unfold select. apply wp_bind. eapply wp_mono; [apply fund_assets_told, H|]. cbn beta. intros s1 ut1 H1.
    apply wp_bind. eapply wp_mono; [apply main_until_balanced_told, H1|]. cbn beta. intros s2 ut2 H2. cbn zeta.
    apply wp_bind. eapply wp_mono; [apply extra_inputs_told, H2|]. cbn beta. intros s3 ut3 H3.
    apply wp_bind. eapply wp_mono; [apply return_excess_told, H3|]. cbn beta. intros s4 [] H4.
    apply wp_bind. eapply wp_mono; [apply balance_excess_told, H4|]. cbn beta. intros s5 [] H5.
    apply wp_bind. eapply wp_mono; [apply (split_all_told _ (ordc (t_changes s5)) s5); [| |exact H5]|].
    - rewrite (Permutation_map fst (Ho _)). apply NoDup_fst_map_to_list.
    - intros t o Hin. rewrite (Ho _), elem_of_map_to_list in Hin. exact Hin.
    - cbn beta. intros s6 [] H6. exact H6.
  Qed.
End Count.
