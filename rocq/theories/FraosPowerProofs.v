From Coq Require Import Lia ZArith.
From stdpp Require Import numbers list.
From Verif Require Import FraosModel FraosSpec FraosProofs FraosLogProofs FraosCrashProofs FraosHistProofs FraosPowerModel FraosPowerSpec.

(** ** files byte by byte *)
Lemma set_len_default (f : list N) n i : i < n -> set_len f n !! i = Some (default 0%N (f !! i)).
Proof.
  intro Hi. unfold set_len. destruct (decide (i < length f)) as [H|H].
  - rewrite lookup_resize by assumption. destruct (lookup_lt_is_Some_2 f i H) as [x ->]. reflexivity.
  - rewrite lookup_resize_new by lia. rewrite (proj2 (lookup_ge_None f i)) by lia. reflexivity.
Qed.

Lemma in_data_bytes (v : list N) p : in_data v p <-> p.2 <> [] /\ p_end p <= length v /\ forall i, i < length p.2 -> v !! (p.1 + i) = p.2 !! i.
Proof.
  unfold in_data. split; intros (H1 & H2 & H3); (split; [exact H1|]); (split; [exact H2|]); unfold p_end in H2.
  - intros i Hi. rewrite <- H3. rewrite sub_lookup by exact Hi. reflexivity.
  - apply list_eq. intro i. destruct (decide (i < length p.2)) as [Hi|Hi].
    + rewrite sub_lookup by exact Hi. auto.
    + rewrite !(proj2 (lookup_ge_None _ _)); [reflexivity|lia|]. rewrite sub_length by lia. lia.
Qed.

Definition dgood (L : list placed) (T : nat) (v : list N) : Prop := Forall (in_data v) L /\ length v <= T.
Record xgood (L : list placed) (X : nat) (v : list N) : Prop := XGood {
  xg_idx : take (16 * length L) v = ibytes L;
  xg_len : 16 * length L <= length v;
  xg_tail : tail_unused v (length L);
  xg_max : length v <= X
}.

Lemma xgood_byte L X v i : xgood L X v -> i < 16 * length L -> v !! i = ibytes L !! i.
Proof. intros H Hi. rewrite <- (xg_idx _ _ _ H). rewrite lookup_take by exact Hi. reflexivity. Qed.

Lemma tail_zero v n j r : tail_unused v n -> n <= j -> r < 8 -> default 0%N (v !! (16 * j + 8 + r)) = 0%N.
Proof.
  intros [H1 H2] Hj Hr. destruct (v !! (16 * j + 8 + r)) as [b|] eqn:E; [|reflexivity]. simpl.
  assert (Hlt := lookup_lt_Some _ _ _ E). apply Nat.mod_divides in H1 as [c Hc]; [|lia].
  eapply (from_le_zero_inv _ (H2 j Hj ltac:(lia)) r). rewrite sub_lookup by exact Hr. exact E.
Qed.

Lemma xgood_intro L X v : length v mod 16 = 0 -> 16 * length L <= length v -> length v <= X ->
  (forall i, i < 16 * length L -> v !! i = ibytes L !! i) ->
  (forall j r, length L <= j -> r < 8 -> default 0%N (v !! (16 * j + 8 + r)) = 0%N) -> xgood L X v.
Proof.
  intros Hm Hl HX Hb Hz. split; [|exact Hl| |exact HX].
  - apply list_eq. intro i. destruct (decide (i < 16 * length L)) as [Hi|Hi].
    + rewrite lookup_take by exact Hi. auto.
    + rewrite !(proj2 (lookup_ge_None _ _)); [reflexivity|rewrite ibytes_length; lia|rewrite take_length; lia].
  - split; [exact Hm|]. intros j Hj Hjl. apply from_le_zero. intros r x Hx. assert (Hr := lookup_lt_Some _ _ _ Hx).
    rewrite sub_length in Hr by lia. rewrite sub_lookup in Hx by exact Hr. specialize (Hz j r Hj Hr). rewrite Hx in Hz. exact Hz.
Qed.

(** ** what survives *)
Lemma surv_d blk L T vs f : Forall (dgood L T) vs -> survives blk vs f -> dgood L T f.
Proof.
  intros Hvs [(v & Hv & Hl) Hb]. rewrite Forall_forall in Hvs. split; [|rewrite Hl; apply Hvs; exact Hv].
  apply Forall_forall. intros p Hp. apply in_data_bytes.
  assert (Hin : forall u, u ∈ vs -> in_data u p) by (intros u Hu; destruct (Hvs _ Hu) as [G _]; rewrite Forall_forall in G; auto).
  destruct (proj1 (in_data_bytes _ _) (Hin v Hv)) as (P1 & P2 & P3). split; [exact P1|]. split; [lia|]. intros i Hi. unfold p_end in P2.
  destruct (Hb ((p.1 + i) / blk)) as (u & Hu & Hub).
  destruct (lookup_lt_is_Some_2 f (p.1 + i)) as [b Eb]; [lia|]. specialize (Hub _ _ eq_refl Eb).
  destruct (proj1 (in_data_bytes _ _) (Hin u Hu)) as (_ & _ & Q3). rewrite (Q3 i Hi) in Hub. rewrite Eb.
  destruct (lookup_lt_is_Some_2 p.2 i Hi) as [x Ex]. rewrite Ex in *. simpl in Hub. congruence.
Qed.

Lemma ibytes_prefix_lookup L P i : i < 16 * length L -> ibytes (L ++ P) !! i = ibytes L !! i.
Proof. intro Hi. rewrite ibytes_app. apply lookup_app_l. rewrite ibytes_length. exact Hi. Qed.

(** the index file after a power failure while the entries of [P] are written to one sector *)
Lemma surv_batch sec L P X vs f : 0 < sec ->
  Forall (fun v => exists q, xgood (L ++ take q P) X v) vs -> survives sec vs f ->
  (P <> [] -> 16 * length L / sec = (16 * (length L + length P) - 1) / sec) ->
  exists q, xgood (L ++ take q P) X f.
Proof.
  intros Hsec Hvs [(v0 & Hv0 & Hl) Hb] Hone. rewrite Forall_forall in Hvs.
  destruct (Hb (16 * length L / sec)) as (v & Hv & Hvb). destruct (Hvs v Hv) as (q0 & Hg0).
  assert (exists q, q <= length P /\ xgood (L ++ take q P) X v) as (q & Hq & Hg).
  { exists (Nat.min q0 (length P)). split; [lia|]. destruct (decide (q0 <= length P)); [rewrite Nat.min_l by lia; exact Hg0|].
    rewrite Nat.min_r by lia. rewrite take_ge in Hg0 by lia. rewrite firstn_all. exact Hg0. }
  clear q0 Hg0. assert (Hlen : forall m, m <= length P -> length (L ++ take m P) = length L + m) by (intros m Hm; rewrite app_length, take_length; lia).
  destruct (Hvs v0 Hv0) as (q1 & Hg1).
  assert (Hmod : length f mod 16 = 0) by (rewrite Hl; apply (xg_tail _ _ _ Hg1)).
  assert (Hmax : length f <= X) by (rewrite Hl; apply (xg_max _ _ _ Hg1)).
  assert (Hmin : 16 * length L <= length f).
  { rewrite Hl. pose proof (xg_len _ _ _ Hg1) as G. rewrite app_length in G. lia. }
  apply Nat.mod_divides in Hmod as [c Hc]; [|lia].
  set (m := Nat.min q (c - length L)). exists m.
  assert (Hm : m <= length P) by lia. assert (Hmc : length L + m <= c) by lia.
  assert (Hin : forall i, 16 * length L <= i -> i < 16 * (length L + length P) -> i / sec = 16 * length L / sec).
  { intros i H1 H2. assert (P <> []) by (intros ->; simpl in H2; lia). specialize (Hone H).
    assert (16 * length L / sec <= i / sec) by (apply Nat.div_le_mono; lia).
    assert (i / sec <= (16 * (length L + length P) - 1) / sec) by (apply Nat.div_le_mono; lia). lia. }
  apply xgood_intro; rewrite ?Hlen by exact Hm.
  - rewrite Hc. apply mod16_mul.
  - lia.
  - exact Hmax.
  - intros i Hi. destruct (lookup_lt_is_Some_2 f i) as [b Eb]; [lia|]. rewrite Eb.
    destruct (decide (i < 16 * length L)) as [Hi1|Hi1].
    + destruct (Hb (i / sec)) as (u & Hu & Hub). specialize (Hub _ _ eq_refl Eb). destruct (Hvs u Hu) as (q2 & Hg2).
      rewrite (xgood_byte _ _ _ _ Hg2) in Hub by (rewrite app_length; lia).
      rewrite ibytes_prefix_lookup in Hub by exact Hi1. rewrite ibytes_prefix_lookup by exact Hi1.
      destruct (lookup_lt_is_Some_2 (ibytes L) i) as [x Ex]; [rewrite ibytes_length; exact Hi1|]. rewrite Ex in *. simpl in Hub. congruence.
    + specialize (Hvb i b (Hin i ltac:(lia) ltac:(lia)) Eb).
      rewrite (xgood_byte _ _ _ _ Hg) in Hvb by (rewrite Hlen by exact Hq; lia).
      assert (Heq : L ++ take q P = (L ++ take m P) ++ drop m (take q P)).
      { rewrite <- app_assoc. f_equal. rewrite <- (take_drop m (take q P)) at 1. f_equal. rewrite take_take. f_equal. lia. }
      rewrite Heq, ibytes_prefix_lookup in Hvb by (rewrite Hlen by exact Hm; lia).
      destruct (lookup_lt_is_Some_2 (ibytes (L ++ take m P)) i) as [x Ex]; [rewrite ibytes_length, Hlen by exact Hm; lia|].
      rewrite Ex in *. simpl in Hvb. congruence.
  - intros j r Hj Hr. destruct (f !! (16 * j + 8 + r)) as [b|] eqn:Eb; [|reflexivity]. simpl. assert (Hlt := lookup_lt_Some _ _ _ Eb).
    destruct (decide (length L + length P <= j)) as [Hj2|Hj2].
    + destruct (Hb ((16 * j + 8 + r) / sec)) as (u & Hu & Hub). specialize (Hub _ _ eq_refl Eb). destruct (Hvs u Hu) as (q2 & Hg2).
      rewrite <- Hub. apply (tail_zero u (length (L ++ take q2 P))); [apply (xg_tail _ _ _ Hg2)| |exact Hr].
      rewrite app_length, take_length. lia.
    + specialize (Hvb _ b (Hin (16 * j + 8 + r) ltac:(lia) ltac:(lia)) Eb). rewrite <- Hvb.
      apply (tail_zero v (length (L ++ take q P))); [apply (xg_tail _ _ _ Hg)| |exact Hr]. rewrite Hlen by exact Hq. lia.
Qed.

(** ** synchronising *)
Lemma page_bounds pg off len : 0 < pg -> off / pg * pg <= off /\ off + len <= (off + len + pg - 1) / pg * pg.
Proof.
  intro H. split; [rewrite Nat.mul_comm; apply Nat.mul_div_le; lia|].
  pose proof (Nat.div_mod (off + len + pg - 1) pg ltac:(lia)). pose proof (Nat.mod_upper_bound (off + len + pg - 1) pg ltac:(lia)).
  rewrite Nat.mul_comm. lia.
Qed.

Lemma synced_length dk F off len v : 0 < dk_page dk -> length (synced dk F off len v) = length F.
Proof.
  intro H. destruct (page_bounds (dk_page dk) off len H) as [H1 H2]. unfold synced.
  set (lo := off / dk_page dk * dk_page dk) in *. set (hi := (off + len + dk_page dk - 1) / dk_page dk * dk_page dk) in *.
  rewrite !app_length, !take_length, !drop_length, set_len_length. lia.
Qed.

Lemma synced_lookup dk F off len v i : 0 < dk_page dk -> i < length F ->
  (synced dk F off len v !! i = F !! i) \/
  (synced dk F off len v !! i = Some (default 0%N (v !! i)) /\ (i < off \/ off + len <= i)).
Proof.
  intros H Hi. destruct (page_bounds (dk_page dk) off len H) as [H1 H2]. unfold synced.
  set (lo := off / dk_page dk * dk_page dk) in *. set (hi := (off + len + dk_page dk - 1) / dk_page dk * dk_page dk) in *.
  destruct (decide (i < lo)) as [G1|G1].
  - right. split; [|lia]. rewrite lookup_app_l by (rewrite take_length, set_len_length; lia).
    rewrite lookup_take by exact G1. apply set_len_default. exact Hi.
  - rewrite lookup_app_r by (rewrite take_length; lia). rewrite take_length, set_len_length, Nat.min_l by lia.
    destruct (decide (i < hi)) as [G2|G2].
    + left. rewrite lookup_app_l by (rewrite take_length, drop_length; lia). rewrite lookup_take by lia. rewrite lookup_drop. f_equal. lia.
    + right. split; [|lia]. rewrite lookup_app_r by (rewrite take_length, drop_length; lia).
      rewrite take_length, drop_length, lookup_drop. replace (hi + (i - lo - Nat.min (hi - lo) (length F - lo))) with i by lia.
      apply set_len_default. exact Hi.
Qed.

Lemma synced_d dk F off len v p : 0 < dk_page dk -> in_data F p -> in_data v p \/ (off <= p.1 /\ p_end p <= off + len) ->
  in_data (synced dk F off len v) p.
Proof.
  intros Hpg HF Hv. apply in_data_bytes in HF as (F1 & F2 & F3). apply in_data_bytes. split; [exact F1|]. rewrite synced_length by exact Hpg.
  split; [exact F2|]. intros i Hi. unfold p_end in *.
  destruct (synced_lookup dk F off len v (p.1 + i) Hpg ltac:(lia)) as [->|[-> Hr]]; [auto|].
  destruct Hv as [Hv|Hv]; [|lia]. apply in_data_bytes in Hv as (_ & _ & V3). rewrite (V3 i Hi).
  destruct (lookup_lt_is_Some_2 p.2 i Hi) as [x ->]. reflexivity.
Qed.

Lemma synced_x dk F off len v L P q X : 0 < dk_page dk -> xgood (L ++ P) X F -> xgood (L ++ take q P) X v ->
  off <= 16 * length L -> 16 * (length L + length P) <= off + len -> xgood (L ++ P) X (synced dk F off len v).
Proof.
  intros Hpg HF Hv H1 H2. apply xgood_intro; rewrite ?synced_length by exact Hpg.
  - apply (xg_tail _ _ _ HF).
  - apply (xg_len _ _ _ HF).
  - apply (xg_max _ _ _ HF).
  - intros i Hi. pose proof (xg_len _ _ _ HF) as Hle.
    destruct (synced_lookup dk F off len v i Hpg ltac:(lia)) as [->|[-> Hr]]; [apply (xgood_byte _ _ _ _ HF Hi)|].
    rewrite app_length in Hi. assert (Hi2 : i < 16 * length L) by lia.
    rewrite (xgood_byte _ _ _ _ Hv) by (rewrite app_length; lia). rewrite !ibytes_prefix_lookup by exact Hi2.
    destruct (lookup_lt_is_Some_2 (ibytes L) i) as [x ->]; [rewrite ibytes_length; exact Hi2|reflexivity].
  - intros j r Hj Hr. destruct (decide (16 * j + 8 + r < length F)) as [Hlt|Hge].
    + destruct (synced_lookup dk F off len v (16 * j + 8 + r) Hpg Hlt) as [->|[-> _]].
      * apply (tail_zero F (length (L ++ P))); [apply (xg_tail _ _ _ HF)|exact Hj|exact Hr].
      * simpl. apply (tail_zero v (length (L ++ take q P))); [apply (xg_tail _ _ _ Hv)| |exact Hr].
        rewrite app_length in *. rewrite take_length. lia.
    + rewrite (proj2 (lookup_ge_None _ _)); [reflexivity|]. rewrite synced_length by exact Hpg. lia.
Qed.

(** ** the mapping flushed after an append holds the new bytes *)
Definition flush_covers (ap : appender) (a b : nat) : Prop :=
  exists F act off len, g_file (ap_mmap ap) = Some F /\ g_active (ap_mmap ap) = Some act /\ a_map act = AFile off len /\
    off <= a /\ b <= off + len.

Lemma append_covers k ap B w f ap' f0 : ap_ok ap B -> w <> [] ->
  (forall n, length w <= n -> f n = (w, None)) -> g_file (ap_mmap ap) = Some f0 ->
  appender_append k no_faults ap (length w) f = (ap', Ok tt) -> flush_covers ap' (length B) (length B + length w).
Proof.
  intros [Hg Hs] Hw Hf Hf0. assert (Hpos : 0 < length w) by (destruct w; simpl; [congruence|lia]).
  unfold appender_append. destruct (length w =? 0) eqn:E0; [apply Nat.eqb_eq in E0; lia|].
  unfold grow_and_apply. rewrite E0.
  destruct (grow_prepare k no_faults (ap_mmap ap) (length w)) as [g1 r1] eqn:Ep.
  destruct (grow_prepare_ok k no_faults _ B (length w) g1 r1 Hg Hpos eq_refl Ep) as (Hgr & Hcase & _).
  destruct Hcase as [(-> & _ & _)|(start & a & -> & HP & _)]; [intro E; discriminate|].
  assert (HP' := HP). destruct HP' as [P1 P2 P3 P4 P5 P6 P7 P8 P9 P10]. rewrite P1.
  assert (Hsz : active_size a = a_len a).
  { unfold active_size. destruct (a_map a); [|apply P9]. destruct P9 as (_ & -> & _). reflexivity. }
  rewrite Hsz. destruct (a_len a <? start) eqn:E1; [apply Nat.ltb_lt in E1; lia|].
  rewrite Hf by lia.
  assert (Hgf : is_Some (g_file g1)) by (destruct Hgr as [->|(f2 & _ & ->)]; [rewrite Hf0|]; eauto).
  destruct Hgf as [f1 Hf1]. unfold active_write. destruct (a_map a) as [off len|buf] eqn:Em; [|destruct P9; congruence].
  destruct P9 as (-> & -> & f2 & Ef2 & Hl2). rewrite Hf1 in *. injection Ef2 as <-.
  destruct (i_len (g_index g1) + start + length w <=? length f1) eqn:El; [|intro E; discriminate]. simpl f_flush. cbn iota.
  set (g2 := Gmm _ _ _ _). assert (Hact : g_active g2 = Some a) by reflexivity. assert (Hfil : is_Some (g_file g2)) by (eexists; reflexivity).
  clearbody g2. unfold rearrange.
  assert (Hgoal : forall g3, g_active g3 = Some a -> is_Some (g_file g3) -> flush_covers (Appender g3 (ap_size ap + length w)) (length B) (length B + length w)).
  { intros g3 Ha [F HF]. exists F, a, (i_len (g_index g1)), (a_len a). simpl. repeat split; auto; lia. }
  destruct (length (g_maps g2) <=? max_mmaps k); [intro E; injection E as <-; auto|].
  destruct Hfil as [F HF]. rewrite HF. simpl f_remap. cbn iota.
  destruct (c_append (Chunk 0 []) (i_len (g_index g2))); [|intro E; discriminate..].
  destruct (i_append [] a0); [|intro E; discriminate..]. intro E; injection E as <-. apply Hgoal; [exact Hact|eexists; reflexivity].
Qed.
