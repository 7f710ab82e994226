(** C65: a view of a mapped file is a slice of it. *)
From Coq Require Import NArith Lia.
From stdpp Require Import prelude list.
From Verif Require Import FraosModel FraosViewModel FraosViewSpec.
Open Scope nat_scope.

Lemma selects_none {A} s e (l : list A) :
  (forall i, i < length l -> from_start s (N.of_nat i) -> to_end e (N.of_nat i) -> False) -> selects s e l [].
Proof. intro H. exists [], l. split; [reflexivity|]. intros i Hi. cbn. split; [intros [P Q]; exfalso; eauto|lia]. Qed.

Section Slice.
  Context {byte : Type} (chk : bool).
  Implicit Types v : shared byte.

  Lemma first_of_ok s n : startable s -> first_of chk s = Some n -> forall i, from_start s i <-> (n <= i)%N.
  Proof.
    intros Hs H i. destruct s as [m|m|]; cbn [first_of from_start startable] in *.
    - injection H as ->. reflexivity.
    - unfold usize_succ in H. destruct (m + 1 <? 2 ^ 64)%N eqn:Q; [|apply N.ltb_ge in Q; lia]. injection H as <-. lia.
    - injection H as <-. split; [lia|auto].
  Qed.
  Lemma first_of_some s : startable s -> exists n, first_of chk s = Some n.
  Proof.
    destruct s as [m|m|]; cbn [first_of startable]; eauto. intro H. unfold usize_succ. apply N.ltb_lt in H as ->. eauto.
  Qed.
  Lemma slice_ok v s e bs : sh_bytes v = Some bs -> startable s ->
    exists v' out, sh_slice chk v s e = Some v' /\ sh_map v' = sh_map v /\ sh_bytes v' = Some out /\ sh_length v' = length out /\ selects s e bs out.
  Proof.
    intros Hb Hs. unfold sh_bytes in Hb. destruct (_ <=? _) eqn:B; [|discriminate]. injection Hb as Hb. apply Nat.leb_le in B.
    assert (L : length bs = sh_len v) by (rewrite <- Hb, take_length, drop_length; lia).
    assert (Em : exists out, sh_bytes (Shared (sh_map v) 0 (sh_pos v)) = Some out /\ sh_length (Shared (sh_map v) 0 (sh_pos v)) = length out /\ out = []).
    { exists []. unfold sh_bytes. cbn [sh_pos sh_len sh_map]. assert (sh_pos v + 0 <=? length (sh_map v) = true) as -> by (apply Nat.leb_le; lia). auto. }
    destruct Em as (o0 & E1 & E2 & ->).
    unfold sh_slice. destruct (sh_len v =? 0) eqn:Z.
    { apply Nat.eqb_eq in Z. eexists _, _. split; [reflexivity|]. split; [reflexivity|]. split; [exact E1|]. split; [exact E2|].
      apply selects_none. lia. }
    apply Nat.eqb_neq in Z. destruct (first_of_some s Hs) as [st F]. rewrite F. assert (F1 := first_of_ok s st Hs F).
    destruct (N.of_nat (sh_len v) <=? st)%N eqn:G.
    { apply N.leb_le in G. eexists _, _. split; [reflexivity|]. split; [reflexivity|]. split; [exact E1|]. split; [exact E2|].
      apply selects_none. intros i Hi P _. apply F1 in P. lia. }
    apply N.leb_gt in G. destruct (last_of (sh_len v) e) as [en|] eqn:La.
    2: { eexists _, _. split; [reflexivity|]. split; [reflexivity|]. split; [exact E1|]. split; [exact E2|].
         destruct e as [m|m|]; cbn in La; try discriminate. destruct (m =? 0)%N eqn:M; [|discriminate]. apply N.eqb_eq in M as ->.
         apply selects_none. intros i _ _ Q. cbn in Q. lia. }
    assert (T : forall i, (i < N.of_nat (sh_len v))%N -> to_end e i <-> (i <= N.min en (N.of_nat (sh_len v) - 1))%N).
    { intros i Hi. destruct e as [m|m|]; cbn in La |- *.
      - injection La as ->. lia.
      - destruct (m =? 0)%N eqn:M; [discriminate|]. apply N.eqb_neq in M. injection La as <-. lia.
      - injection La as <-. split; [lia|auto]. }
    cbn zeta. set (e1 := N.min en (N.of_nat (sh_len v) - 1)) in *.
    assert (e1 < N.of_nat (sh_len v))%N by lia.
    destruct (st <=? e1)%N eqn:Le.
    - apply N.leb_le in Le. set (len := N.to_nat (e1 - st + 1)). set (a := N.to_nat st).
      assert (a + len <= sh_len v) by lia.
      eexists _, (take len (drop a bs)). split; [reflexivity|]. split; [reflexivity|].
      assert (LL : length (take len (drop a bs)) = len) by (rewrite take_length, drop_length; lia).
      split; [|split; [symmetry; exact LL|]].
      + unfold sh_bytes. cbn [sh_pos sh_len sh_map]. fold len a.
        assert (sh_pos v + a + len <=? length (sh_map v) = true) as -> by (apply Nat.leb_le; lia). f_equal.
        rewrite <- Hb, skipn_firstn_comm, drop_drop, take_take. f_equal. lia.
      + exists (take a bs), (drop len (drop a bs)). split; [rewrite take_drop, take_drop; reflexivity|].
        intros i Hi. rewrite LL, take_length, F1, T by lia. lia.
    - apply N.leb_gt in Le. eexists _, []. split; [reflexivity|]. split; [reflexivity|].
      unfold sh_bytes. cbn [sh_pos sh_len sh_map]. split; [|split; [reflexivity|]].
      + assert (sh_pos v + N.to_nat st + N.to_nat 0 <=? length (sh_map v) = true) as -> by (apply Nat.leb_le; lia). reflexivity.
      + apply selects_none. intros i Hi P Q. apply F1 in P. apply T in Q; lia.
  Qed.
End Slice.

(** ** The theorems *)
(** A new view is the whole mapping. *)
Theorem C65_new {byte} (m : list byte) : sh_bytes (sh_new m) = Some m /\ sh_length (sh_new m) = length m /\ (sh_is_empty (sh_new m) = true <-> m = []).
Proof.
  unfold sh_bytes, sh_length, sh_is_empty. cbn [sh_new sh_pos sh_len sh_map]. rewrite Nat.add_0_l, Nat.leb_refl. split; [|split; [reflexivity|]].
  - rewrite drop_0, take_ge; [reflexivity|lia].
  - rewrite Nat.eqb_eq. split; [apply nil_length_inv|intros ->; reflexivity].
Qed.

(** A slice never panics and never fails: it holds the bytes of the view at the positions within the bounds, in order, whatever the
    bounds are, also beyond the end or crossed. One start bound is excepted: what comes after the last number of usize. *)
Theorem C65_slice {byte} chk (v : shared byte) s e bs : sh_bytes v = Some bs -> startable s ->
  exists v' out, sh_slice chk v s e = Some v' /\ sh_bytes v' = Some out /\ sh_length v' = length out /\ selects s e bs out.
Proof. intros H Hs. destruct (slice_ok chk v s e bs H Hs) as (v' & out & A & _ & B & C & D). eauto 8. Qed.

(** However views are cut from views, each stays within the mapping they come from and holds what the bounds select in turn. *)
Theorem C65_slices {byte} chk (m : list byte) l : Forall (fun b => startable (fst b)) l ->
  exists v out, sh_slices chk (sh_new m) l = Some v /\ sh_map v = m /\ sh_bytes v = Some out /\ selects_all l m out.
Proof.
  intro H. assert (B := proj1 (C65_new m)).
  enough (G : forall v bs, sh_bytes v = Some bs ->
    exists v' out, sh_slices chk v l = Some v' /\ sh_map v' = sh_map v /\ sh_bytes v' = Some out /\ selects_all l bs out) by exact (G _ _ B).
  clear B m. induction H as [|[s e] l Hs _ IH]; intros v bs B.
  - exists v, bs. cbn. repeat split; auto. constructor.
  - destruct (slice_ok chk v s e bs B Hs) as (v1 & o1 & A1 & A2 & A3 & _ & A4).
    destruct (IH v1 o1 A3) as (v2 & o2 & C1 & C2 & C3 & C4). exists v2, o2. cbn [sh_slices]. rewrite A1.
    split; [exact C1|]. split; [congruence|]. split; [exact C3|]. econstructor; eauto.
Qed.

(** What the bounds select is a single list. *)
Theorem C65_selects_one {A} s e (l o1 o2 : list A) : selects s e l o1 -> selects s e l o2 -> o1 = o2.
Proof.
  intros (b1 & a1 & E1 & H1) (b2 & a2 & E2 & H2).
  assert (L1 : length l = length b1 + length o1 + length a1) by (rewrite E1, !app_length; lia).
  assert (L2 : length l = length b2 + length o2 + length a2) by (rewrite E2, !app_length; lia).
  assert (Q : forall i, i < length l -> (length b1 <= i < length b1 + length o1 <-> length b2 <= i < length b2 + length o2)).
  { intros i Hi. rewrite <- H1, <- H2 by exact Hi. reflexivity. }
  destruct (decide (length o1 = 0)) as [Z1|Z1].
  - destruct (decide (length o2 = 0)) as [Z2|Z2].
    + apply nil_length_inv in Z1 as ->. apply nil_length_inv in Z2 as ->. reflexivity.
    + specialize (Q (length b2)). lia.
  - assert (Z2 : length o2 <> 0). { specialize (Q (length b1)). lia. }
    assert (P1 := Q (length b1)). assert (P2 := Q (length b2)). assert (B : length b1 = length b2) by lia.
    assert (P3 := Q (length b1 + length o1 - 1)). assert (P4 := Q (length b2 + length o2 - 1)).
    assert (O : length o1 = length o2) by lia.
    rewrite E1 in E2. apply app_inj_1 in E2 as [_ E2]; [|exact B]. apply app_inj_1 in E2 as [E2 _]; [exact E2|exact O].
Qed.

(** The excepted bound: a build with overflow checks panics, any other returns the view from its start instead of nothing. *)
Theorem C65_last_start_refuted : exists (v : shared nat) s bs, sh_bytes v = Some bs /\ bs <> [] /\
  sh_slice true v s Unbounded = None /\
  (exists v', sh_slice false v s Unbounded = Some v' /\ sh_bytes v' = Some bs) /\ selects s Unbounded bs [].
Proof.
  exists (sh_new [1; 2; 3]), (Excluded (2 ^ 64 - 1)), [1; 2; 3].
  split; [reflexivity|]. split; [discriminate|]. split; [vm_compute; reflexivity|]. split; [eexists; split; vm_compute; reflexivity|].
  apply selects_none. intros i Hi P _. cbn [from_start] in P. cbn [length] in Hi.
  assert (N.of_nat i < 3)%N by lia. assert (3 < 2 ^ 64 - 1)%N by reflexivity. lia.
Qed.

(** The log reads its closed mappings through such slices: the slices of its model are these. *)
Theorem C65_in_log f o l a b bs : o + l <= length f -> view_read (Some f) (VFile o l) = Some bs ->
  exists out, view_read (Some f) (view_slice (VFile o l) a b) = Some out /\ selects (Included (N.of_nat a)) (Excluded (N.of_nat b)) bs out.
Proof.
  intros Hl Hr. cbn [view_read] in Hr. assert (o + l <=? length f = true) as X by (apply Nat.leb_le; lia). rewrite X in Hr. injection Hr as Hr.
  assert (Hb : sh_bytes (Shared f l o) = Some bs). { unfold sh_bytes. cbn [sh_pos sh_len sh_map]. rewrite X, Hr. reflexivity. }
  destruct (C65_slice true _ (Included (N.of_nat a)) (Excluded (N.of_nat b)) _ Hb I) as (v' & out & S & B & _ & D).
  exists out. split; [|exact D]. rewrite <- B. clear D B Hb Hr bs.
  assert (V : forall p q, view_read (Some f) (VFile p q) = sh_bytes (Shared f q p)) by reflexivity.
  unfold sh_slice in S. cbn [sh_len sh_map sh_pos first_of last_of] in S.
  unfold view_slice. cbn [view_len view_sub].
  destruct (l =? 0) eqn:Z; cbn [orb]; [injection S as <-; rewrite V, Nat.add_0_r; reflexivity|]. apply Nat.eqb_neq in Z.
  destruct (N.of_nat l <=? N.of_nat a)%N eqn:G.
  { assert (l <=? a = true) as -> by (apply Nat.leb_le; apply N.leb_le in G; lia). cbn [orb]. injection S as <-. rewrite V, Nat.add_0_r. reflexivity. }
  assert (l <=? a = false) as -> by (apply Nat.leb_gt; apply N.leb_gt in G; lia). cbn [orb].
  destruct (N.of_nat b =? 0)%N eqn:M.
  { assert (b =? 0 = true) as -> by (apply Nat.eqb_eq; apply N.eqb_eq in M; lia). injection S as <-. rewrite V, Nat.add_0_r. reflexivity. }
  assert (b =? 0 = false) as -> by (apply Nat.eqb_neq; apply N.eqb_neq in M; lia).
  injection S as <-. rewrite V. cbn zeta. f_equal. f_equal.
  - destruct (a <=? Nat.min (b - 1) (l - 1)) eqn:Q.
    + apply Nat.leb_le in Q. assert ((N.of_nat a <=? N.min (N.of_nat b - 1) (N.of_nat l - 1))%N = true) as -> by (apply N.leb_le; lia). lia.
    + apply Nat.leb_gt in Q. assert ((N.of_nat a <=? N.min (N.of_nat b - 1) (N.of_nat l - 1))%N = false) as -> by (apply N.leb_gt; lia). reflexivity.
  - lia.
Qed.

(** ** cases *)
(** the third to fifth byte of the last six, then all of these but the first; crossed bounds; a range beyond the end *)
Example C65_slices_case :
  Forall (fun b => startable (fst b)) [(Excluded 1, Included 4); (Included 1, Unbounded)]%N /\
  (v ← sh_slices true (sh_new [10; 20; 30; 40; 50; 60; 70]) [(Excluded 1, Included 4); (Included 1, Unbounded)]%N; sh_bytes v) = Some [40; 50] /\
  (v ← sh_slice true (sh_new [10; 20; 30]) (Included 2) (Excluded 1); sh_bytes v) = Some [] /\
  (v ← sh_slice true (sh_new [10; 20; 30]) (Included 1) (Included 900); sh_bytes v) = Some [20; 30].
Proof. split; [repeat constructor|]. repeat split. Qed.
(** a closed mapping of four bytes, two bytes into a file of eight *)
Example C65_in_log_case : 2 + 4 <= length [0; 1; 2; 3; 4; 5; 6; 7]%N /\ view_read (Some [0; 1; 2; 3; 4; 5; 6; 7]%N) (VFile 2 4) = Some [2; 3; 4; 5]%N /\
  view_read (Some [0; 1; 2; 3; 4; 5; 6; 7]%N) (view_slice (VFile 2 4) 1 3) = Some [3; 4]%N /\
  view_read (Some [0; 1; 2; 3; 4; 5; 6; 7]%N) (view_slice (VFile 2 4) 2 2) = Some [].
Proof. split; [cbn; lia|]. repeat split. Qed.

Definition C65_all := (@C65_new, @C65_slice, @C65_slices, @C65_selects_one, @C65_last_start_refuted, @C65_in_log).
Print Assumptions C65_all.
