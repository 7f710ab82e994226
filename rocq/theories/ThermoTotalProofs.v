(** Proofs about when the thermostat succeeds, for setups without tokens and estimators that charge a fixed price. *)
From Coq Require Import ZArith Lia Sorting.
From stdpp Require Import gmap strings list.
From Verif Require Import ValueModel BalanceModel BalanceProofs StoreModel StoreSpec StoreProofs StoreProps SelModel SelSpec SelProofs SelLargestProofs ThermoModel ThermoProofs ThermoRunProofs ThermoFeeProofs ThermoExtraProofs.
Open Scope Z_scope.

(** running a method that returns a value; L says what holds if a loop is cut short *)
Definition tp {S A} (L : Prop) (p : S * res A) (Q : S -> A -> Prop) : Prop :=
  match p with (s, ROk a) => Q s a | (_, RLoop) => L | _ => False end.
Lemma tp_bind {S A B} L (p : S * res A) (f : S -> A -> S * res B) Q :
  tp L p (fun s a => tp L (f s a) Q) -> tp L (bind p f) Q.
Proof. destruct p as [s [a| | |]]; exact id. Qed.
Lemma tp_mono {S A} L (p : S * res A) (Q R : S -> A -> Prop) : tp L p Q -> (forall s a, Q s a -> R s a) -> tp L p R.
Proof. intros H HQ. destruct p as [s [a| | |]]; cbn in *; auto. Qed.
Lemma tp_wp {S A} L L' (p : S * res A) (Q R : S -> A -> Prop) : tp L p Q -> wp L' p R -> tp (L /\ L') p (fun s a => Q s a /\ R s a).
Proof. intros H W. destruct p as [s [a| | |]]; cbn in *; auto. Qed.

(** ** swapping an element for the largest one *)
Lemma exchange (S l : list utxo) u : (forall w, w ∈ l -> u_value w <= u_value u) -> S ⊆+ u :: l -> S <> [] ->
  exists S', S' ⊆+ l /\ length S = Datatypes.S (length S') /\ value_in S <= u_value u + value_in S'.
Proof.
  intros Hu HS Hn. apply submseteq_cons_r in HS as [HS|(S' & P & HS)].
  - destruct S as [|x S]; [congruence|]. exists S. split.
    + transitivity (x :: S); [apply submseteq_cons; reflexivity|exact HS].
    + split; [reflexivity|]. assert (u_value x <= u_value u).
      { apply Hu. eapply elem_of_submseteq; [|exact HS]. left. }
      change (value_in (x :: S)) with (value_in ([x] ++ S)). rewrite value_in_app, value_in_one. lia.
  - exists S'. split; [exact HS|]. split; [rewrite (Permutation_length P); reflexivity|].
    rewrite (value_in_perm _ _ P). change (value_in (u :: S')) with (value_in ([u] ++ S')). rewrite value_in_app, value_in_one. lia.
Qed.

Section Total.
  Context {E : Type} (est : estimator E) (enum : nat -> enumeration) (sc : Z) (above : Z -> Z -> N -> bool) (chk : bool)
          (cfg : tconfig) (addr : option string) (outputs : list uout) (ordc : torder uout) (P : Prop) (h : list store_op) (a b : Z).
  Notation st := (thermo E).
  Context (Hfair : forall n, fair (enum n)) (Hwf : Forall wf_op h) (Hmain : c_main cfg = MAIN).
  Context (Hlin : linear est a b) (Hfine : fine est sc cfg P h).
  Context (base f0 : Z).
  Notation tracked := (tracked est h a base f0).
  Notation inv := (inv est sc cfg P h []).

  Definition pure (l : list utxo) : list utxo := filter (fun u => u_assets u = []) l.
  Definition pool (s : st) : list utxo := pure (unspent (spend h (t_sel s))).
  Definition enough (s : st) : Prop := exists S, S ⊆+ pool s /\
    f0 + a * Z.of_nat (length (t_sel s) + length S) <= base + value_in (t_sel s) + value_in S.

  Lemma debt_iff (s : st) f : znormal (t_bal s) -> 0 <= f -> in_debt (zbal_sub_value (t_bal s) f) = true <-> zsigned (t_bal s) < f.
  Proof.
    intros G1 Hf. assert (Q := zbal_sub_value_normal (t_bal s) f G1 Hf). assert (R := zbal_sub_value_signed (t_bal s) f).
    destruct (zbal_sub_value (t_bal s) f); cbn in *; split; intros; try discriminate; try reflexivity; lia.
  Qed.

  Lemma select_input_total s ut : inv s ut -> tracked s -> pool s <> [] ->
    tp False (select_input_for est enum s ut MAIN) (fun s' ut' => inv s' ut' /\ store_len ut = S (store_len ut') /\ tracked s' /\
      exists u, t_sel s' = t_sel s ++ [u] /\ pool s ≡ₚ u :: pool s' /\ forall w, w ∈ pool s' -> u_value w <= u_value u).
  Proof.
    intros H T Hp.
    assert (X := select_input_for_cases est enum sc cfg P h [] Hfair Hwf s ut MAIN H (or_introl eq_refl)).
    assert (Y := select_input_tracked est enum sc cfg P h a b Hfair Hwf Hlin base f0 s ut H T).
    destruct (select_input_for est enum s ut MAIN) as [s1 [ut1| | |]] eqn:Se; try contradiction.
    - cbn [tp]. destruct X as [I1 L1 _ _]. destruct Y as (T1 & u & Hs & _). split; [exact I1|]. split; [exact L1|]. split; [exact T1|].
      exists u. split; [exact Hs|].
      assert (Pu : unspent (spend h (t_sel s)) ≡ₚ u :: unspent (spend h (t_sel s1))).
      { destruct H as [[_ B _ _ _] _]. destruct I1 as [[_ B1 _ _ _] _]. rewrite Hs, <- app_assoc, <- B in B1.
        apply Permutation_app_inv_l in B1. rewrite <- B1. rewrite Hs. reflexivity. }
      destruct T1 as (_ & _ & _ & G2 & G3). assert (Hin : u ∈ t_sel s1) by (rewrite Hs; apply elem_of_app; right; left).
      split.
      + unfold pool, pure. rewrite Pu. rewrite filter_cons_True by (apply G3, Hin). reflexivity.
      + intros w Hw. apply elem_of_list_filter in Hw as [Hw1 Hw2]. apply G2; assumption.
    - cbn [tp]. subst s1. apply Hp. unfold select_input_for in Se. destruct H as [[A B C D X0] G]. subst ut.
      assert (Hw2 : Forall wf_op (spend h (t_sel s))) by (apply spend_wf, Hwf).
      destruct (C10_listings (spend h (t_sel s)) MAIN (enum (store_len (final (spend h (t_sel s))))) Hw2 (Hfair _)) as (_ & _ & Pm & _).
      change (fst (store_run store_new (spend h (t_sel s)))) with (final (spend h (t_sel s))) in Pm.
      destruct (List.find _ _) as [u|] eqn:Fu.
      + exfalso. apply find_some in Fu as [Hin _]. apply elem_of_list_In in Hin. rewrite Pm in Hin.
        apply elem_of_list_filter in Hin as [_ Hu].
        destruct (Hlin (t_est s)) as (f' & _ & Li & _). destruct (Li u) as (_ & e' & Ha & _). unfold add_in in Se. rewrite Ha in Se. cbn [bind] in Se.
        rewrite (remove_present _ _ Hu) in Se. discriminate.
      + unfold pool, pure. destruct (filter (fun u => u_assets u = []) (unspent (spend h (t_sel s)))) as [|w l] eqn:Fl; [reflexivity|]. exfalso.
        assert (Hw : w ∈ filter (fun u => u_assets u = []) (unspent (spend h (t_sel s)))) by (rewrite Fl; left).
        apply elem_of_list_filter in Hw as [Hw1 Hw]. assert (N := find_none _ _ Fu w).
        rewrite (proj2 (pure_main w (unspent_wf _ Hw2 _ Hw)) Hw1) in N. discriminate N.
        apply elem_of_list_In. rewrite Pm. apply elem_of_list_filter. split; [left; reflexivity|exact Hw].
  Qed.

  Lemma main_until_total : forall fuel s ut, inv s ut -> tracked s -> enough s -> (store_len ut < fuel)%nat ->
    tp False (main_until_balanced est enum cfg fuel s ut) (fun s' ut' => inv s' ut' /\ tracked s' /\
      f0 + a * Z.of_nat (length (t_sel s')) <= zsigned (t_bal s') /\
      (t_sel s <> [] \/ base < f0 -> t_sel s' <> [])).
  Proof.
    induction fuel as [|fuel IH]; intros s ut H T En Hl; [lia|]. cbn [main_until_balanced]. unfold current_balance.
    destruct T as (Tf & Tb & Tg). rewrite Tf. cbn [lift bind].
    assert (G1 : znormal (t_bal s)) by (destruct H as [_ Gs]; destruct (Gs Hfine); assumption).
    assert (Hf0 : 0 <= f0 + a * Z.of_nat (length (t_sel s))) by (destruct Hfine as (Fe & _); apply (proj1 (Fe (t_est s))); exact Tf).
    assert (D := debt_iff s _ G1 Hf0). destruct (in_debt _).
    - destruct En as (S & HS & Hen). assert (Hlt := proj1 D eq_refl).
      assert (HSn : S <> []). { intros ->. cbn [length] in Hen. rewrite Nat.add_0_r in Hen. change (value_in []) with 0 in Hen. lia. }
      rewrite Hmain. apply tp_bind. eapply tp_mono; [apply select_input_total; [exact H|split; [exact Tf|split; [exact Tb|exact Tg]]|]|].
      { intro Z0. rewrite Z0 in HS. apply submseteq_nil_r in HS. contradiction. }
      cbn beta. intros s1 ut1 (I1 & L1 & T1 & u & Hs & Pp & Hu). rewrite Pp in HS.
      destruct (exchange S (pool s1) u Hu HS HSn) as (S' & HS' & Hlen & Hval).
      eapply tp_mono; [apply (IH s1 ut1 I1 T1); [|lia]|].
      + exists S'. split; [exact HS'|]. rewrite Hs, app_length, value_in_app, value_in_one. cbn [length].
        replace (length (t_sel s) + 1 + length S')%nat with (length (t_sel s) + length S)%nat by lia. lia.
      + cbn beta. intros s' ut' (A & B & C & F). split; [exact A|]. split; [exact B|]. split; [exact C|]. intros _. apply F. left.
        rewrite Hs. destruct (t_sel s); discriminate.
    - cbn [tp]. split; [exact H|]. split; [split; [exact Tf|split; [exact Tb|exact Tg]]|].
      assert (~ zsigned (t_bal s) < f0 + a * Z.of_nat (length (t_sel s))) by (intro Q; apply D in Q; discriminate).
      split; [lia|]. intros [?|Hb]; [assumption|]. intro Z0. rewrite Z0 in *. cbn [length] in *. change (value_in []) with 0 in Tb. lia.
  Qed.

  Context (Hs : forall e, is_Some (e_size est e) /\ is_Some (e_max est e)) (Ha : sc <= a) (Ha2 : a / sc < Z.of_N two64) (Hb2 : b / sc < Z.of_N two64).
  Context (Hout : outputs <> []) (ad : string) (Had : addr = Some ad) (Hnum : c_num cfg <> 0%N).
  Context (Hmin : forall e o, exists m, snd (e_min_value est e o) = Some m).

  Lemma abal_empty s ut : inv s ut -> t_abal s = ∅.
  Proof.
    intro H. apply map_eq. intro t. rewrite lookup_empty. destruct (t_abal s !! t) eqn:L; [|reflexivity]. exfalso.
    destruct (k_keys _ _ _ _ (proj1 H) t) as [Q _]. rewrite L in Q. specialize (Q ltac:(eauto)). inversion Q.
  Qed.

  Lemma remaining_total s ut : inv s ut -> t_sel s <> [] -> tp False (remaining est sc chk outputs s) (fun s' _ => s' = s).
  Proof.
    intros H Hsel. unfold remaining. destruct outputs as [|o os]; [congruence|]. destruct (t_sel s) as [|u us]; [congruence|].
    assert (Hsc : 0 < sc) by apply Hfine. assert (Fe := proj1 Hfine (t_est s)).
    destruct (Hlin (t_est s)) as (f' & Hf' & Li & Lo & _). destruct (Lo o) as [Ho _]. destruct (Li u) as [Hi _].
    assert (0 <= b) by (eapply Fe; exact Ho).
    rewrite Ho. cbn [lift bind]. unfold to_usize at 1. destruct (Z.ltb_spec b 0) as [?|_]; [lia|]. destruct (Z.ltb_spec (b / sc) (Z.of_N two64)) as [_|?]; [|lia].
    cbn [lift bind]. rewrite Hi. cbn [lift bind]. unfold to_usize. destruct (Z.ltb_spec a 0) as [?|_]; [lia|].
    destruct (Z.ltb_spec (a / sc) (Z.of_N two64)) as [_|?]; [|lia]. cbn [lift bind].
    rewrite (abal_empty s ut H), map_size_empty. cbn [N.of_nat].
    assert (R0 : forall so, usize_mul chk so 0 = Some 0%N) by (intro so; unfold usize_mul; rewrite N.mul_0_r; reflexivity).
    rewrite R0. assert (R1 : usize_mul chk 0 2 = Some 0%N) by reflexivity. rewrite R1.
    destruct (Hs (t_est s)) as [[n Hn] [m Hm]]. rewrite Hm. cbn [lift bind]. rewrite Hn. cbn [lift bind].
    assert (1 <= a / sc) by (apply Z.div_le_lower_bound; lia).
    destruct (N.eqb_spec (Z.to_N (a / sc)) 0) as [Q|_]; [lia|]. reflexivity.
  Qed.

  Lemma extra_total : forall fuel empty s ut, inv s ut -> tracked s -> t_sel s <> [] -> 0 <= zsigned (t_bal s) -> length empty = 1%nat ->
    tp True (extra_inputs est enum sc chk cfg outputs fuel [MAIN] empty 0 s ut) (fun s' ut' => inv s' ut' /\ 0 <= zsigned (t_bal s')).
  Proof.
    induction fuel as [|fuel IH]; intros empty s ut H T Ne Hb Le; cbn [extra_inputs]; apply tp_bind;
      (assert (R := remaining_total s ut H Ne)); (destruct (remaining est sc chk outputs s) as [s' [n| | |]]; try contradiction);
      cbn [tp] in *; subst s'; (destruct (n =? 0)%N; [split; [exact H|exact Hb]|]); [exact I|].
    cbn [lookup list_lookup]. destruct empty as [|[|] [|? ?]]; try discriminate; cbn [lookup list_lookup length].
    - cbn. split; [exact H|exact Hb].
    - change (1 mod 1)%nat with 0%nat. destruct (_ <=? _)%N; [apply IH; auto|].
      assert (X := select_input_for_cases est enum sc cfg P h [] Hfair Hwf s ut MAIN H (or_introl eq_refl)).
      assert (Y := select_input_tracked est enum sc cfg P h a b Hfair Hwf Hlin base f0 s ut H T).
      destruct (select_input_for est enum s ut MAIN) as [s1 [ut1| | |]]; try contradiction.
      + destruct X as [I1 _ _ _]. destruct Y as (T1 & u & Hs1 & _). apply IH; [exact I1|exact T1|rewrite Hs1; destruct (t_sel s); discriminate| |reflexivity].
        destruct T as (_ & Tb & _). destruct T1 as (_ & Tb1 & _). rewrite Tb1, Hs1, value_in_app, value_in_one. rewrite Tb in Hb.
        assert (0 <= u_value u); [|lia]. destruct Hfine as (_ & _ & _ & _ & N & _). rewrite Forall_forall in N. apply N.
        rewrite <- (k_part _ _ _ _ (proj1 I1)). apply elem_of_app. left. rewrite Hs1. apply elem_of_app. right. left.
      + subst s1. apply IH; auto.
  Qed.

  Lemma balance_excess_total s : znormal (t_bal s) -> 0 <= zsigned (t_bal s) -> t_changes s = ∅ ->
    tp False (balance_excess est cfg addr s) (fun s' _ => 0 <= zsigned (t_bal s') /\ znormal (t_bal s')).
  Proof.
    intros G1 Hb C0. unfold balance_excess, current_balance. destruct (Hlin (t_est s)) as (f & Hf & _ & _ & Lm). rewrite Hf. cbn [lift bind].
    assert (0 <= f) by (destruct Hfine as (Fe & _); apply (proj1 (Fe (t_est s))); exact Hf).
    assert (R := zbal_sub_value_signed (t_bal s) f). assert (N := zbal_sub_value_normal (t_bal s) f G1 ltac:(assumption)).
    destruct (zbal_sub_value (t_bal s) f) as [d| |x]; [split; assumption|split; assumption|]. rewrite Had. cbn [lift bind].
    rewrite C0, lookup_empty. unfold min_value. destruct (Hmin (t_est s) (Uout ad x [] None)) as [m Hm].
    specialize (Lm (Uout ad x [] None)). destruct (e_min_value est (t_est s) (Uout ad x [] None)) as [e m'] eqn:Em. cbn [snd] in Hm. subst m'. cbn [bind fst] in *.
    assert (0 <= m) by (destruct Hfine as (_ & Hmv & _); eapply Hmv; exact Em).
    destruct (x <? m); [split; assumption|]. destruct (Hlin e) as (f' & Hf' & _ & Lo & _). destruct (Lo (Uout ad x [] None)) as [Lg _].
    cbn [with_est t_est]. rewrite Lg. cbn [lift bind].
    assert (0 <= b) by (destruct Hfine as (Fe & _); eapply (Fe e); exact Lg).
    destruct (Z.ltb_spec x (m + b)) as [?|?]; [split; assumption|].
    destruct (Lo (Uout ad (x - b) [] None)) as (_ & e' & Ha' & _). unfold add_out. cbn [pay with_bal with_est t_est]. rewrite Ha'. cbn [bind tp put with_est pay with_bal t_bal].
    rewrite zbal_sub_value_signed. split; [cbn in R; lia|]. apply zbal_sub_value_normal; [exact G1|lia].
  Qed.

  Lemma split_all_total ut : forall l s, (forall t o, (t, o) ∈ l -> o_assets o = []) -> znormal (t_bal s) -> 0 <= zsigned (t_bal s) ->
    tp False (split_all est sc above cfg ut l s) (fun s' _ => 0 <= zsigned (t_bal s') /\ znormal (t_bal s')).
  Proof.
    induction l as [|[t o] l IH]; intros s Hl G1 Hb; [split; assumption|]. cbn [split_all]. apply tp_bind.
    apply (tp_mono _ _ (fun s' _ => 0 <= zsigned (t_bal s') /\ znormal (t_bal s'))).
    - unfold split_one. destruct (get_balance_of ut t); [|split; assumption]. rewrite (Hl t o) by left.
      destruct (bool_decide _); [|split; assumption]. destruct (N.eqb_spec (c_num cfg) 0) as [?|_]; [contradiction|].
      destruct (Hlin (t_est s)) as (f & Hf & _ & Lo & _). destruct (Lo o) as [Lg _]. rewrite Lg. cbn [lift bind].
      assert (0 <= b) by (destruct Hfine as (Fe & _); eapply (Fe (t_est s)); exact Lg).
      destruct (_ || _); [split; assumption|]. destruct (above _ _ _); [|split; assumption].
      match goal with |- tp _ (add_out _ ?S ?O) _ => destruct (Lo O) as (_ & e' & Ha' & _) end.
      unfold add_out. cbn [push_extra gain with_bal put t_est]. rewrite Ha'. cbn [tp with_est t_bal push_extra gain with_bal put].
      rewrite zbal_add_value_signed. split; [lia|]. apply zbal_add_value_normal; [exact G1|lia].
    - intros s1 [] [A B]. apply IH; [|assumption|assumption]. intros t' o' Hin. apply (Hl t'). right. exact Hin.
  Qed.

  Lemma select_total s : fair_t ordc -> inv s (final h) -> t_changes s = ∅ -> t_sel s = [] -> tracked s -> 
    base < f0 -> enough s ->
    tp False (select est enum sc above chk cfg addr outputs ordc [] (final h) s) (fun s' _ => in_debt (t_bal s') = false).
  Proof.
    intros Ho I0 C0 S0 T0 Hlt En. unfold select. cbn [fund_assets bind].
    assert (And : forall {A} (p : st * res A) (Q R : st -> A -> Prop) L, tp L p Q -> wp False p R -> tp False p (fun s a => Q s a /\ R s a)).
    { intros A p Q R L W1 W2. destruct p as [s0 [x| | |]]; cbn in *; tauto. }
    assert (AndT : forall {A} (p : st * res A) (Q R : st -> A -> Prop), tp False p Q -> wp True p R -> tp False p (fun s a => Q s a /\ R s a)).
    { intros A p Q R W1 W2. destruct p as [s0 [x| | |]]; cbn in *; tauto. }
    apply tp_bind. eapply tp_mono; [apply AndT; [apply (main_until_total _ s (final h) I0 T0 En); lia|apply (main_until_keeps est enum cfg), C0]|].
    cbn beta zeta. intros s2 ut2 ((I2 & T2 & B2 & N2) & C2). rewrite orb_true_r. cbn [app]. rewrite Hmain.
    assert (Ne2 : t_sel s2 <> []) by (apply N2; right; exact Hlt).
    assert (P2 : 0 <= zsigned (t_bal s2)).
    { destruct T2 as (Tf & _). assert (0 <= f0 + a * Z.of_nat (length (t_sel s2))) by (destruct Hfine as (Fe & _); apply (proj1 (Fe (t_est s2))); exact Tf). lia. }
    apply tp_bind. eapply tp_mono.
    { apply AndT; [eapply And; [apply (extra_total _ (repeat false 1) s2 ut2 I2 T2 Ne2 P2 eq_refl)|]|apply (extra_inputs_keeps est enum sc chk cfg outputs), C2].
      apply (extra_inputs_run est enum sc chk cfg outputs P h [] Hfair Hwf [MAIN]); [discriminate| |exact I2|reflexivity|cbn; lia|].
      - intros t Ht. apply elem_of_list_singleton in Ht. left. exact Ht.
      - right. exists 0%nat. split; [cbn; lia|]. split; [reflexivity|]. unfold extra_fuel. rewrite down_repeat. cbn [length]. lia. }
    cbn beta. intros s3 ut3 (((I3 & P3) & _) & C3).
    cbn [length Nat.eqb andb head]. rewrite (bool_decide_eq_true_2 (Some MAIN = Some MAIN)) by reflexivity. rewrite orb_true_r.
    cbn [removelast return_excess bind]. apply tp_bind.
    assert (G3 : znormal (t_bal s3)) by (destruct I3 as [_ Gs]; destruct (Gs Hfine); assumption).
    assert (Sh : wp True (balance_excess est cfg addr s3) (fun s' _ => forall t o, t_changes s' !! t = Some o -> o_assets o = [])).
    { unfold balance_excess. apply wp_bind, current_balance_wp. intros f _.
      assert (Z0 : forall t o, t_changes s3 !! t = Some o -> o_assets o = []) by (intros t o Q; rewrite C3, lookup_empty in Q; discriminate).
      destruct (zbal_sub_value _ _); [exact Z0|exact Z0|]. apply wp_bind, wp_lift. intros ad' _. rewrite C3, lookup_empty.
      apply wp_bind, min_value_wp. intros e m _. destruct (_ <? m); [exact Z0|]. apply wp_bind, wp_lift. intros g _.
      destruct (_ <? m + g); [exact Z0|]. apply wp_bind, add_out_wp. intro e'. cbn [wp put pay with_bal with_est t_changes]. rewrite C3.
      intros t o Q. apply lookup_insert_Some in Q as [[_ <-]|[_ Q]]; [reflexivity|]. rewrite lookup_empty in Q. discriminate. }
    eapply tp_mono; [apply AndT; [apply (balance_excess_total s3 G3 P3 C3)|exact Sh]|]. cbn beta. intros s4 [] ((P4 & G4) & Sh4).
    apply tp_bind. eapply tp_mono; [apply (split_all_total ut3 _ s4)|]; [|exact G4|exact P4|].
    - intros t o Hin. rewrite (Ho (t_changes s4)), elem_of_map_to_list in Hin. exact (Sh4 _ _ Hin).
    - cbn beta. intros s5 [] (P5 & G5). cbn [tp]. destruct (t_bal s5); cbn in *; try reflexivity. lia.
  Qed.

  (** ** and only then *)
  Lemma main_until_reaches : forall fuel s ut, inv s ut -> tracked s ->
    wp True (main_until_balanced est enum cfg fuel s ut) (fun s' ut' => inv s' ut' /\ tracked s' /\
      f0 + a * Z.of_nat (length (t_sel s')) <= base + value_in (t_sel s')).
  Proof.
    induction fuel as [|fuel IH]; intros s ut H T; cbn [main_until_balanced];
      apply wp_bind, current_balance_wp; intros f Hf; 
      (assert (G1 : znormal (t_bal s)) by (destruct H as [_ Gs]; destruct (Gs Hfine); assumption));
      (assert (Hf0 : 0 <= f) by (destruct Hfine as (Fe & _); apply (proj1 (Fe (t_est s))); exact Hf));
      assert (D := debt_iff s f G1 Hf0); destruct (in_debt (zbal_sub_value (t_bal s) f)) eqn:Dd; cbn [wp].
    1: exact I.
    1,3: split; [exact H|]; split; [exact T|]; destruct T as (Tf & Tb & _); rewrite Hf in Tf; injection Tf as ->; rewrite <- Tb;
      destruct (Z.lt_ge_cases (zsigned (t_bal s)) (f0 + a * Z.of_nat (length (t_sel s)))) as [Q|Q]; [apply D in Q; discriminate|lia].
    apply wp_bind. rewrite Hmain.
    assert (X := select_input_for_cases est enum sc cfg P h [] Hfair Hwf s ut MAIN H (or_introl eq_refl)).
    assert (Y := select_input_tracked est enum sc cfg P h a b Hfair Hwf Hlin base f0 s ut H T).
    destruct (select_input_for est enum s ut MAIN) as [s1 [ut1| | |]]; cbn [wp]; auto.
    destruct X as [I1 _ _ _]. destruct Y as (T1 & _). apply IH; [exact I1|exact T1].
  Qed.

  Lemma wp_any {S A} (p : S * res A) (Q : Prop) : Q -> wp True p (fun _ _ => Q).
  Proof. destruct p as [? [| | |]]; cbn; auto. Qed.

  Lemma select_only_if s : inv s (final h) -> t_sel s = [] -> tracked s ->
    wp True (select est enum sc above chk cfg addr outputs ordc [] (final h) s) (fun _ _ => base < f0 /\
      exists S, S ⊆+ pure (unspent h) /\ f0 + a * Z.of_nat (length S) <= base + value_in S).
  Proof.
    intros I0 S0 T0. unfold select. cbn [fund_assets bind].
    assert (M := main_until_reaches (S (store_len (final h))) s (final h) I0 T0).
    assert (M0 : f0 <= base -> exists s' ut', main_until_balanced est enum cfg (S (store_len (final h))) s (final h) = (s', ROk ut') /\ t_sel s' = []).
    { intro Hle. cbn [main_until_balanced]. unfold current_balance. destruct T0 as (Tf & Tb & _). rewrite S0 in Tf, Tb. cbn [length] in Tf.
      change (value_in []) with 0 in Tb. rewrite Tf. cbn [lift bind].
      assert (G1 : znormal (t_bal s)) by (destruct I0 as [_ Gs]; destruct (Gs Hfine); assumption).
      assert (Hf0 : 0 <= f0 + a * Z.of_nat 0) by (destruct Hfine as (Fe & _); apply (proj1 (Fe (t_est s))); exact Tf).
      assert (D := debt_iff s _ G1 Hf0). destruct (in_debt _); [|eauto]. assert (Q := proj1 D eq_refl). lia. }
    destruct (main_until_balanced est enum cfg (S (store_len (final h))) s (final h)) as [s2 [ut2| | |]]; cbn [bind wp]; auto.
    cbn [wp] in M. destruct M as (I2 & T2 & R2). cbn zeta.
    destruct (Z.lt_ge_cases base f0) as [Hlt|Hge].
    - apply wp_any. split; [exact Hlt|]. exists (t_sel s2). split; [|exact R2].
      destruct T2 as (_ & _ & _ & _ & G3). destruct I2 as [[_ B _ _ _] _]. unfold pure.
      rewrite <- B. rewrite filter_app. apply submseteq_inserts_r.
      assert (Q : filter (fun u => u_assets u = []) (t_sel s2) = t_sel s2).
      { clear -G3. induction (t_sel s2) as [|u l IH]; [reflexivity|]. rewrite filter_cons_True by (apply G3; left). f_equal.
        apply IH. intros w Hw. apply G3. right. exact Hw. }
      rewrite Q. reflexivity.
    - destruct (M0 ltac:(lia)) as (s' & ut' & Q & Qs). injection Q as <- <-.
      match goal with |- wp _ (bind (extra_inputs _ _ _ _ _ _ ?F ?L ?M ?I _ _) _) _ =>
        assert (X : extra_inputs est enum sc chk cfg outputs F L M I s2 ut2 = (s2, RErr)) end.
      { unfold extra_fuel. cbn [extra_inputs]. unfold remaining. rewrite Qs. destruct outputs; reflexivity. }
      rewrite X. exact Logic.I.
  Qed.
End Total.
