From Coq Require Import Lia ZArith.
From stdpp Require Import numbers list.
From Verif Require Import FraosModel FraosProofs.

(** ** little-endian words *)
Lemma to_le_length n x : length (to_le n x) = n.
Proof. revert x. induction n; intro x; simpl; auto. Qed.

Lemma from_to_le n x : (x < 256 ^ N.of_nat n)%N -> from_le (to_le n x) = x.
Proof.
  revert x. induction n as [|n IH]; intros x Hx.
  - simpl in *. lia.
  - cbn [to_le from_le]. rewrite IH.
    + pose proof (N.div_mod' x 256). lia.
    + apply N.div_lt_upper_bound; [lia|]. rewrite Nat2N.inj_succ, N.pow_succ_r' in Hx. lia.
Qed.

Lemma from_to_le_8 x : (x < 2 ^ 64)%N -> from_le (to_le 8 x) = x.
Proof. intro H. apply from_to_le. exact H. Qed.

Lemma entry_length e : length (entry_bytes e) = 16.
Proof. unfold entry_bytes. rewrite app_length, !to_le_length. reflexivity. Qed.

Lemma entries_length l : length (flat_map entry_bytes l) = 16 * length l.
Proof. induction l as [|e l IH]; [reflexivity|]. cbn [flat_map length]. rewrite app_length, entry_length, IH. lia. Qed.

Lemma sub_0 (l : list N) p : sub l p 0 = [].
Proof. unfold sub. apply take_0. Qed.

Lemma sub_app_r (l r : list N) p n : length l <= p -> sub (l ++ r) p n = sub r (p - length l) n.
Proof. intro H. unfold sub. rewrite drop_app_ge by exact H. reflexivity. Qed.

Lemma entries_lookup l : forall i e, l !! i = Some e ->
  sub (flat_map entry_bytes l) (16 * i) 8 = to_le 8 (N.of_nat e.1) /\
  sub (flat_map entry_bytes l) (16 * i + 8) 8 = to_le 8 (N.of_nat e.2).
Proof.
  induction l as [|d l IH]; intros i e Hi; [rewrite lookup_nil in Hi; discriminate|].
  destruct i as [|i]; cbn [flat_map].
  - simpl in Hi. injection Hi as ->. rewrite !sub_app_l by (rewrite entry_length; lia).
    unfold entry_bytes. split.
    + rewrite sub_app_l by (rewrite to_le_length; lia). unfold sub. rewrite drop_0. apply take_ge. rewrite to_le_length. lia.
    + rewrite sub_app_r by (rewrite to_le_length; lia). rewrite to_le_length. unfold sub.
      replace (16 * 0 + 8 - 8) with 0 by lia. rewrite drop_0. apply take_ge. rewrite to_le_length. lia.
  - simpl in Hi. rewrite !sub_app_r by (rewrite entry_length; lia). rewrite entry_length.
    replace (16 * S i - 16) with (16 * i) by lia. replace (16 * S i + 8 - 16) with (16 * i + 8) by lia. apply IH. exact Hi.
Qed.

(** ** find_actual_end *)
Lemma find_loop_spec (len_at : nat -> res N) (v : nat -> N) len :
  (forall i, i < len -> len_at i = Ok (v i)) -> v (len - 1) = 0%N ->
  forall m fuel start end_ reads, m < fuel -> v start <> 0%N -> start < end_ -> end_ <= len ->
    (end_ < len -> v end_ = 0%N) -> end_ - start <= 2 ^ m ->
    exists n r, find_loop fuel len_at len start end_ reads = Some (Ok n, r) /\ 0 < n < len /\
      v (n - 1) <> 0%N /\ v n = 0%N /\ r <= reads + 2 * m + 1.
Proof.
  intros Hat Hlast. induction m as [|m IH]; intros fuel start end_ reads Hf Hs Hse Hel Hend Hgap;
    (destruct fuel as [|fuel]; [lia|]); cbn [find_loop].
  - assert (start <> len - 1) by congruence.
    destruct (start <? len - 1) eqn:E; [|apply Nat.ltb_ge in E; lia]. apply Nat.ltb_lt in E.
    rewrite Hat by lia. simpl in Hgap.
    assert (Hz : v (start + 1) = 0%N) by (replace (start + 1) with end_ by lia; apply Hend; lia).
    rewrite Hz. simpl. exists (start + 1), (reads + 1). replace (start + 1 - 1) with start by lia.
    repeat split; auto; lia.
  - assert (start <> len - 1) by congruence.
    destruct (start <? len - 1) eqn:E; [|apply Nat.ltb_ge in E; lia]. apply Nat.ltb_lt in E.
    rewrite Hat by lia. destruct (N.eqb (v (start + 1)) 0) eqn:E1.
    + apply N.eqb_eq in E1. exists (start + 1), (reads + 1). replace (start + 1 - 1) with start by lia.
      repeat split; auto; lia.
    + apply N.eqb_neq in E1.
      assert (start + 2 <= end_).
      { destruct (decide (end_ = start + 1)) as [->|]; [|lia]. exfalso. apply E1, Hend. lia. }
      set (mid := (start + end_) / 2).
      assert (Hmid : start + 1 <= mid < end_).
      { unfold mid. split; [apply Nat.div_le_lower_bound; lia|apply Nat.div_lt_upper_bound; lia]. }
      assert (Hhalf : 2 * mid <= start + end_ /\ start + end_ <= 2 * mid + 1).
      { unfold mid. pose proof (Nat.div_mod (start + end_) 2 ltac:(lia)).
        pose proof (Nat.mod_upper_bound (start + end_) 2 ltac:(lia)). lia. }
      rewrite Nat.pow_succ_r' in Hgap. rewrite Hat by lia. destruct (v mid =? 0)%N eqn:E2.
      * apply N.eqb_eq in E2. destruct (IH fuel start mid (reads + 2)) as (n & r & G & H1 & H2 & H3 & H4); try lia; auto.
        exists n, r. repeat split; auto; lia.
      * apply N.eqb_neq in E2.
        assert (Hg2 : end_ - mid <= 2 ^ m).
        { destruct (decide (end_ - start = 2 * 2 ^ m)); [lia|]. lia. }
        destruct (IH fuel mid end_ (reads + 2)) as (n & r & G & H1 & H2 & H3 & H4); try lia; auto.
        exists n, r. repeat split; auto; lia.
Qed.

Lemma find_end_spec len_at v len :
  0 < len -> (forall i, i < len -> len_at i = Ok (v i)) ->
  exists n r, find_actual_end (S len) len_at len = Some (Ok n, r) /\ n <= len /\
    (0 < n -> v (n - 1) <> 0%N) /\ (n < len -> v n = 0%N) /\ r <= 2 * Nat.log2_up len + 3.
Proof.
  intros Hl Hat. unfold find_actual_end. rewrite Hat by lia.
  destruct (N.eqb (v 0) 0 || (len =? 0)) eqn:E.
  - apply orb_true_iff in E. rewrite N.eqb_eq, Nat.eqb_eq in E. exists 0, 1. repeat split; try lia.
  - apply orb_false_iff in E as [E _]. apply N.eqb_neq in E. rewrite Hat by lia.
    destruct (N.eqb (v (len - 1)) 0) eqn:E2; simpl negb; cbn iota.
    + apply N.eqb_eq in E2.
      destruct (find_loop_spec len_at v len Hat E2 (Nat.log2_up len) (S len) 0 len 2) as (n & r & G & H1 & H2 & H3 & H4); try lia; auto.
      * assert (Nat.log2_up len <= len) by (apply Nat.log2_up_le_lin; lia). lia.
      * rewrite Nat.sub_0_r. destruct (decide (len = 1)) as [->|]; [simpl; lia|]. apply Nat.log2_up_spec. lia.
      * exists n, r. repeat split; auto; lia.
    + apply N.eqb_neq in E2. exists len, 2. repeat split; auto; lia.
Qed.

Lemma gbounds_le g B x : gmm_ok g B -> x ∈ gbounds g -> x <= length B.
Proof.
  intros H Hx. apply gbounds_elem in Hx as (c & b & Hc & Hb & ->).
  assert (Hle : bounds_ok (c_bounds c) -> b <= c_size c).
  { intros [_ Hinc]. apply elem_of_list_lookup in Hb as [i Hi]. unfold c_size. rewrite last_lookup.
    assert (Hlt := lookup_lt_Some _ _ _ Hi).
    destruct (lookup_lt_is_Some_2 (c_bounds c) (Nat.pred (length (c_bounds c)))) as [z Hz]; [lia|]. rewrite Hz.
    destruct (decide (i = Nat.pred (length (c_bounds c)))) as [->|Hn]; [rewrite Hi in Hz; injection Hz as ->; reflexivity|].
    assert (b < z); [|simpl; lia]. eapply Hinc; [|exact Hi|exact Hz]. lia. }
  destruct H as [H1 _ H3 _]. destruct Hc as [Hc|(a & Ha & ->)].
  - apply elem_of_list_lookup in Hc as [n Hn]. destruct (chunks_lookup _ _ H1 _ _ Hn) as (Hbo & _ & _ & Hend).
    rewrite <- i_len_end in Hend. specialize (Hle Hbo). unfold c_end in Hend.
    assert (i_len (g_index g) <= length (B)); [|lia].
    unfold active_ok in H3. destruct (g_active g); [destruct H3 as (_ & _ & _ & <- & _)|]; lia.
  - rewrite Ha in H3. destruct H3 as (-> & Hbo & _ & <- & _). specialize (Hle Hbo). lia.
Qed.

(** ** the index file *)
Definition aligned (g : gmm) : Prop := forall x, x ∈ gbounds g -> x mod 16 = 0.

Lemma idx_get_raw ap IB s : gmm_ok (ap_mmap ap) IB -> aligned (ap_mmap ap) -> 16 * s < length IB ->
  (N.of_nat (16 * s) < 2 ^ 64)%N ->
  idx_get ap (N.of_nat s) = Ok (Some (from_le (sub IB (16 * s) 8), from_le (sub IB (16 * s + 8) 8))) /\ 16 * s + 16 <= length IB.
Proof.
  intros Hok Hal Hs Hfit. unfold idx_get.
  assert (Ha : N.to_nat ((N.of_nat s * 8 * 2) mod 2 ^ 64) = 16 * s).
  { rewrite N.mod_small by lia. lia. }
  rewrite Ha. destruct (get_ref_in (ap_mmap ap) IB (16 * s) Hok Hs) as (n & Hn & Hle & Hb & ->).
  apply Hal in Hb.
  assert (16 <= n).
  { destruct (decide (16 <= n)); [assumption|exfalso].
    replace (16 * s + n) with (n + s * 16) in Hb by lia. rewrite Nat.mod_add in Hb by lia.
    rewrite Nat.mod_small in Hb by lia. lia. }
  rewrite sub_length by lia. destruct (n <? 16) eqn:E; [apply Nat.ltb_lt in E; lia|]. split; [|lia].
  change (drop 8 (sub IB (16 * s) n)) with (drop 8 (sub IB (16 * s) n)).
  change (take 8 (drop 8 (sub IB (16 * s) n))) with (sub (sub IB (16 * s) n) 8 8).
  rewrite sub_sub by lia. rewrite take_sub. rewrite Nat.min_l by lia. reflexivity.
Qed.

Lemma idx_get_none ap IB s : gmm_ok (ap_mmap ap) IB -> (s * 16 < 2 ^ 64)%N -> length IB <= N.to_nat (s * 16) ->
  idx_get ap s = Ok None.
Proof.
  intros Hok Hs Hl. unfold idx_get. rewrite N.mod_small by lia.
  rewrite (get_ref_out (ap_mmap ap) IB) by (auto; lia). reflexivity.
Qed.

(** ** the log: records with the offset of each *)
Notation placed := (nat * list N)%type.
Definition p_end (p : placed) : nat := p.1 + length p.2.
Definition ents (L : list placed) : list (nat * nat) := map (fun p => (p.1, length p.2)) L.
Definition ibytes (L : list placed) : list byte := flat_map entry_bytes (ents L).

Lemma ibytes_length L : length (ibytes L) = 16 * length L.
Proof. unfold ibytes. rewrite entries_length. unfold ents. rewrite map_length. reflexivity. Qed.

Lemma ibytes_app L1 L2 : ibytes (L1 ++ L2) = ibytes L1 ++ ibytes L2.
Proof. unfold ibytes, ents. rewrite map_app, flat_map_app. reflexivity. Qed.

Definition in_data (B : list byte) (p : placed) : Prop :=
  p.2 <> [] /\ p_end p <= length B /\ sub B p.1 (length p.2) = p.2.
Fixpoint ordered_from (o : nat) (L : list placed) : Prop :=
  match L with [] => True | p :: r => o <= p.1 /\ ordered_from (p_end p) r end.
Definition log_end (L : list placed) : nat := match last L with Some p => p_end p | None => 0 end.

Definition fits (B : list byte) (L : list placed) : Prop :=
  (N.of_nat (length B) < 2 ^ 64)%N /\ (N.of_nat (16 * length L) < 2 ^ 64)%N.

(** the length words of the unused entries are zero *)
Definition tail_unused (f : list byte) (n : nat) : Prop :=
  length f mod 16 = 0 /\ forall j, n <= j -> 16 * j + 16 <= length f -> from_le (sub f (16 * j + 8) 8) = 0%N.

Record db_ok (d : db) (B : list byte) (L : list placed) : Prop := DbOk {
  do_data : gmm_ok (ap_mmap (d_data d)) B;
  do_dsize : ap_size (d_data d) = length B;
  do_idx : gmm_ok (ap_mmap (d_idx d)) (ibytes L);
  do_isize : ap_size (d_idx d) = 16 * length L;
  do_align : aligned (ap_mmap (d_idx d));
  do_in : Forall (in_data B) L;
  do_ord : ordered_from 0 L;
  do_bounds : forall x p, x ∈ gbounds (ap_mmap (d_data d)) -> p ∈ L -> x <= p.1 \/ p_end p <= x;
  do_fits : fits B L;
  do_tail : forall f, g_file (ap_mmap (d_idx d)) = Some f -> tail_unused f (length L)
}.

Lemma ordered_end o L : ordered_from o L -> forall p, p ∈ L -> o <= p.1.
Proof.
  revert o. induction L as [|q L IH]; intros o H p Hp; [inversion Hp|]. destruct H as [H1 H2].
  apply elem_of_cons in Hp as [->|Hp]; [exact H1|]. apply (IH _ H2) in Hp. unfold p_end in *. lia.
Qed.

Lemma ordered_le_end o L : ordered_from o L -> forall p, p ∈ L -> p_end p <= log_end L.
Proof.
  revert o. induction L as [|q L IH]; intros o H p Hp; [inversion Hp|]. destruct H as [H1 H2].
  destruct L as [|q' L].
  - apply elem_of_list_singleton in Hp as ->. reflexivity.
  - unfold log_end. rewrite last_cons_cons. fold (log_end (q' :: L)). apply elem_of_cons in Hp as [->|Hp].
    + assert (p_end q <= q'.1) by apply H2. assert (p_end q' <= log_end (q' :: L)) by (eapply IH; [exact H2|left]).
      unfold p_end in *. lia.
    + eapply IH; eauto.
Qed.

Lemma ordered_app o L1 L2 : ordered_from o (L1 ++ L2) <-> ordered_from o L1 /\ ordered_from (match last L1 with Some p => p_end p | None => o end) L2.
Proof.
  revert o. induction L1 as [|q L1 IH]; intro o; [simpl; tauto|]. cbn [app ordered_from]. rewrite IH.
  destruct L1 as [|q' L1]; [simpl; tauto|]. rewrite last_cons_cons. destruct (last (q' :: L1)) eqn:E; [tauto|].
  apply last_None in E. discriminate.
Qed.

(** reading one entry and one record *)
Lemma idx_get_ok d B L i p : db_ok d B L -> L !! i = Some p ->
  idx_get (d_idx d) (N.of_nat i) = Ok (Some (N.of_nat p.1, N.of_nat (length p.2))).
Proof.
  intros H Hi. destruct (do_fits _ _ _ H) as [F1 F2]. assert (Hlt := lookup_lt_Some _ _ _ Hi).
  destruct (idx_get_raw (d_idx d) (ibytes L) i) as [-> _].
  - apply (do_idx _ _ _ H).
  - apply (do_align _ _ _ H).
  - rewrite ibytes_length. lia.
  - lia.
  - assert (He : ents L !! i = Some (p.1, length p.2)) by (unfold ents; rewrite list_lookup_fmap, Hi; reflexivity).
    destruct (entries_lookup _ _ _ He) as [E1 E2]. unfold ibytes. rewrite E1, E2. simpl fst. simpl snd.
    assert (Hin : in_data B p) by (eapply Forall_lookup_1; [apply (do_in _ _ _ H)|exact Hi]).
    destruct Hin as (_ & Hle & _). unfold p_end in Hle. rewrite !from_to_le_8 by lia. reflexivity.
Qed.

Lemma flat_get_ok d B L p : db_ok d B L -> p ∈ L ->
  flat_get (d_data d) (N.of_nat p.1) (N.of_nat (length p.2)) = Ok (Some p.2).
Proof.
  intros H Hp. unfold flat_get. rewrite Nat2N.id.
  assert (Hin : in_data B p) by (eapply Forall_forall; [apply (do_in _ _ _ H)|exact Hp]).
  destruct Hin as (Hne & Hle & Hsub). unfold p_end in Hle.
  assert (0 < length p.2) by (destruct (p.2); [congruence|simpl; lia]).
  destruct (get_ref_in (ap_mmap (d_data d)) B p.1 (do_data _ _ _ H)) as (n & Hn & Hl & Hb & ->); [lia|].
  destruct (do_bounds _ _ _ H _ _ Hb Hp) as [G|G]; [lia|]. unfold p_end in G.
  rewrite sub_length by lia. destruct (N.of_nat n <? N.of_nat (length p.2))%N eqn:E; [apply N.ltb_lt in E; lia|].
  rewrite Nat2N.id, take_sub, Nat.min_l by lia. rewrite Hsub. reflexivity.
Qed.

Lemma db_get_ok d B L s : db_ok d B L -> (s < 2 ^ 60)%N -> db_get d s = Ok (snd <$> L !! N.to_nat s).
Proof.
  intros H Hs. unfold db_get. destruct (L !! N.to_nat s) as [p|] eqn:E.
  - assert (G := idx_get_ok d B L _ p H E). rewrite N2Nat.id in G. rewrite G.
    simpl. eapply flat_get_ok; [exact H|eapply elem_of_list_lookup_2; eauto].
  - rewrite (idx_get_none (d_idx d) (ibytes L)); [reflexivity|apply (do_idx _ _ _ H)| |].
    + change (2 ^ 64)%N with (2 ^ 60 * 16)%N. lia.
    + rewrite ibytes_length. apply lookup_ge_None in E. lia.
Qed.

Lemma db_len_ok d B L : db_ok d B L -> db_len d = length L.
Proof.
  intro H. unfold db_len, idx_len. rewrite (do_isize _ _ _ H). rewrite Nat.div_div by lia.
  change (8 * 2) with 16. rewrite Nat.mul_comm. apply Nat.div_mul. lia.
Qed.

(** ** appending *)
Lemma locations_app o R1 R2 : locations o (R1 ++ R2) = locations o R1 ++ locations (o + length (concat R1)) R2.
Proof.
  revert o. induction R1 as [|r R1 IH]; intro o; simpl; [f_equal; lia|]. rewrite IH, app_length. do 2 f_equal. f_equal. lia.
Qed.

Fixpoint place (o : nat) (recs : list (list byte)) : list placed :=
  match recs with [] => [] | r :: rest => (o, r) :: place (o + length r) rest end.

Lemma place_ents o recs : ents (place o recs) = locations o recs.
Proof. revert o. induction recs as [|r recs IH]; intro o; [reflexivity|]. simpl. f_equal. apply IH. Qed.
Lemma place_length o recs : length (place o recs) = length recs.
Proof. revert o. induction recs as [|r recs IH]; intro o; [reflexivity|]. simpl. f_equal. apply IH. Qed.
Lemma place_snd o recs : map snd (place o recs) = recs.
Proof. revert o. induction recs as [|r recs IH]; intro o; [reflexivity|]. simpl. f_equal. apply IH. Qed.
Lemma place_ordered o recs : ordered_from o (place o recs).
Proof. revert o. induction recs as [|r recs IH]; intro o; [exact I|]. simpl. split; [lia|]. unfold p_end. simpl. apply IH. Qed.
Lemma place_take o recs n : place o (take n recs) = take n (place o recs).
Proof. revert o n. induction recs as [|r recs IH]; intros o n; destruct n; [reflexivity..|]. simpl. f_equal. apply IH. Qed.

Lemma place_in_data B recs : Forall (fun r => r <> []) recs -> forall p, p ∈ place (length B) recs -> in_data (B ++ concat recs) p.
Proof.
  revert B. induction recs as [|r recs IH]; intros B Hne p Hp; [inversion Hp|].
  apply Forall_cons in Hne as [Hr Hne]. simpl in Hp. apply elem_of_cons in Hp as [->|Hp].
  - split; [exact Hr|]. unfold p_end. simpl. rewrite !app_length. split; [lia|].
    rewrite sub_app_r by lia. rewrite Nat.sub_diag. unfold sub. rewrite drop_0. apply take_app_alt. reflexivity.
  - simpl. rewrite app_assoc. apply IH; [exact Hne|]. rewrite app_length. exact Hp.
Qed.

Lemma place_ge o recs p : p ∈ place o recs -> o <= p.1 /\ p_end p <= o + length (concat recs).
Proof.
  revert o. induction recs as [|r recs IH]; intros o Hp; [inversion Hp|]. simpl in *. rewrite app_length.
  apply elem_of_cons in Hp as [->|Hp]; [unfold p_end; simpl; lia|]. apply IH in Hp. lia.
Qed.

Lemma in_data_app B w p : in_data B p -> in_data (B ++ w) p.
Proof.
  intros (H1 & H2 & H3). split; [exact H1|]. unfold p_end in *. rewrite app_length. split; [lia|]. rewrite sub_app_l by lia. exact H3.
Qed.

Lemma existsb_empty {A} (recs : list (list A)) : existsb (fun r => length r =? 0) recs = false <-> Forall (fun r => r <> []) recs.
Proof.
  induction recs as [|r recs IH]; simpl; [split; [constructor|reflexivity]|].
  rewrite orb_false_iff, IH, Forall_cons. destruct r; simpl; split; intros [? ?]; split; try assumption; try discriminate; congruence.
Qed.

Lemma existsb_locations o recs : existsb (fun r => r.2 =? 0) (locations o recs) = existsb (fun r => length r =? 0) recs.
Proof. revert o. induction recs as [|r recs IH]; intro o; [reflexivity|]. simpl. rewrite IH. reflexivity. Qed.

Lemma concat_nonempty {A} (recs : list (list A)) : recs <> [] -> Forall (fun r => r <> []) recs -> concat recs <> [].
Proof. intros H1 H2. destruct recs as [|r recs]; [congruence|]. apply Forall_cons in H2 as [H2 _]. destruct r; [congruence|discriminate]. Qed.

(** appending to a file with bytes B *)
Record ap_ok (ap : appender) (B : list byte) : Prop := ApOk { ap_gmm : gmm_ok (ap_mmap ap) B; ap_sz : ap_size ap = length B }.

Lemma appender_append_ok k fl ap B w f ap' r : ap_ok ap B -> w <> [] -> no_late_faults fl ->
  (forall n, length w <= n -> f n = (w, None)) ->
  appender_append k fl ap (length w) f = (ap', r) ->
  (r = Ok tt /\ ap_ok ap' (B ++ w) /\
    (forall x, x ∈ gbounds (ap_mmap ap') -> x ∈ gbounds (ap_mmap ap) \/ x = length (B ++ w)) /\
    match g_file (ap_mmap ap) with
    | None => g_file (ap_mmap ap') = None
    | Some f0 => exists f1, (f1 = f0 \/ f1 = set_len f0 (length B + Nat.max (length w) (min_mmap k))) /\
                   length B + length w <= length f1 /\ g_file (ap_mmap ap') = Some (write_at f1 (length B) w)
    end) \/
  (r = Err IoError /\ ap_ok ap' B /\ gbounds (ap_mmap ap') = gbounds (ap_mmap ap) /\
    file_grown k (g_file (ap_mmap ap)) (length B) (length w) (g_file (ap_mmap ap')) /\ fl <> no_faults).
Proof.
  intros [Hg Hs] Hw Hfl Hf. unfold appender_append.
  destruct (length w =? 0) eqn:E; [apply Nat.eqb_eq in E; destruct w; [congruence|discriminate]|].
  destruct (grow_and_apply k fl (ap_mmap ap) (length w) f) as [g' r'] eqn:Eg.
  destruct (grow_ok k fl _ B w f g' r' Hg Hw Hfl Hf Eg) as [(-> & H1 & H2 & H3)|(-> & H1 & H2 & H3 & H4)].
  - intro G; injection G as <- <-. left. split; [reflexivity|]. split; [|auto]. split; [exact H1|]. simpl. rewrite app_length. lia.
  - intro G; injection G as <- <-. right. split; [reflexivity|]. split; [|auto]. split; assumption.
Qed.

(** the index file keeps its unused tail *)
Definition cfg_ok (k : cfg) : Prop := min_mmap k mod 16 = 0.

Lemma mod16_add a b : a mod 16 = 0 -> b mod 16 = 0 -> (a + b) mod 16 = 0.
Proof. intros Ha Hb. apply Nat.mod_divides in Ha as [x ->]; [|lia]. apply Nat.mod_divides in Hb as [y ->]; [|lia].
  replace (16 * x + 16 * y) with ((x + y) * 16) by lia. apply Nat.mod_mul. lia. Qed.
Lemma mod16_mul n : (16 * n) mod 16 = 0.
Proof. rewrite Nat.mul_comm. apply Nat.mod_mul. lia. Qed.

Lemma sub_lookup (l : list N) p n j : j < n -> sub l p n !! j = l !! (p + j).
Proof. intro H. unfold sub. rewrite lookup_take by exact H. apply lookup_drop. Qed.

Lemma from_le_zero l : (forall j x, l !! j = Some x -> x = 0%N) -> from_le l = 0%N.
Proof.
  induction l as [|b l IH]; intro H; [reflexivity|]. simpl. rewrite (H 0 b eq_refl), IH; [reflexivity|].
  intros j x Hx. apply (H (S j) x Hx).
Qed.
Lemma from_le_zero_inv l : from_le l = 0%N -> forall j x, l !! j = Some x -> x = 0%N.
Proof.
  induction l as [|b l IH]; intros H j x Hx; [rewrite lookup_nil in Hx; discriminate|]. cbn [from_le] in H.
  destruct j as [|j]; simpl in Hx; [injection Hx as ->; lia|]. apply (IH ltac:(lia) j x Hx).
Qed.

Lemma tail_set_len f n m : tail_unused f n -> m mod 16 = 0 -> tail_unused (set_len f m) n.
Proof.
  intros [H1 H2] Hm. split; [rewrite set_len_length; exact Hm|]. rewrite set_len_length. intros j Hj Hl.
  apply from_le_zero. intros i x Hx. assert (Hi := lookup_lt_Some _ _ _ Hx). rewrite sub_length in Hi by (rewrite set_len_length; lia).
  rewrite sub_lookup in Hx by exact Hi. apply set_len_lookup in Hx as [->|Hx]; [reflexivity|].
  assert (Hp := lookup_lt_Some _ _ _ Hx).
  assert (16 * j + 16 <= length f).
  { apply Nat.mod_divides in H1 as [c Hc]; [|lia]. lia. }
  eapply (from_le_zero_inv _ (H2 j Hj ltac:(assumption)) i). rewrite sub_lookup by exact Hi. exact Hx.
Qed.

Lemma tail_write f n w m : tail_unused f n -> 16 * n + length w <= length f -> length w <= 16 * m + 8 -> tail_unused (write_at f (16 * n) w) (n + m).
Proof.
  intros [H1 H2] Hl Hw. split; [rewrite write_at_length by exact Hl; exact H1|]. rewrite write_at_length by exact Hl.
  intros j Hj Hjl. rewrite <- (H2 j) by lia. f_equal. apply list_eq. intro i.
  destruct (decide (i < 8)).
  - rewrite !sub_lookup by assumption. apply write_at_lookup_ge; lia.
  - rewrite !(proj2 (lookup_ge_None _ _)); [reflexivity| |]; rewrite sub_length; try (rewrite write_at_length by exact Hl); lia.
Qed.

(** one append, possibly with an early failure *)
Lemma tail_append k IF (L : list placed) m F1 w f1 : cfg_ok k -> IF = Some F1 -> tail_unused F1 (length L) -> length w = 16 * m ->
  (f1 = F1 \/ f1 = set_len F1 (16 * length L + Nat.max (length w) (min_mmap k))) -> 16 * length L + length w <= length f1 ->
  tail_unused (write_at f1 (16 * length L) w) (length L + m).
Proof.
  intros Hk _ Ht Hw Hf1 Hl. apply tail_write; [|exact Hl|lia]. destruct Hf1 as [->| ->]; [exact Ht|].
  apply tail_set_len; [exact Ht|]. apply mod16_add; [apply mod16_mul|]. rewrite Hw.
  destruct (Nat.max_dec (16 * m) (min_mmap k)) as [-> | ->]; [apply mod16_mul|exact Hk].
Qed.

Lemma tail_grown k F n F' (L : list placed) m : cfg_ok k -> n = 16 * length L -> file_grown k F n (16 * m) F' ->
  (forall f, F = Some f -> tail_unused f (length L)) -> forall f, F' = Some f -> tail_unused f (length L).
Proof.
  intros Hk -> [-> |(f0 & Hf0 & ->)] Ht f Hf; [auto|]. apply (inj Some) in Hf as <-. apply tail_set_len; [auto|].
  apply mod16_add; [apply mod16_mul|].
  destruct (Nat.max_dec (16 * m) (min_mmap k)) as [-> | ->]; [apply mod16_mul|exact Hk].
Qed.

Lemma place_app o R1 R2 : place o (R1 ++ R2) = place o R1 ++ place (o + length (concat R1)) R2.
Proof. revert o. induction R1 as [|r R1 IH]; intro o; simpl; [f_equal; lia|]. rewrite IH, app_length. do 3 f_equal. lia. Qed.

Lemma ordered_weaken o o' L : o' <= o -> ordered_from o L -> ordered_from o' L.
Proof. destruct L; simpl; [auto|]. intros H [H1 H2]. split; [lia|exact H2]. Qed.

Lemma log_end_le B L : Forall (in_data B) L -> log_end L <= length B.
Proof.
  intro H. unfold log_end. destruct (last L) as [p|] eqn:E; [|lia]. apply last_Some_elem_of in E.
  rewrite Forall_forall in H. apply (H _ E).
Qed.

Lemma ordered_place B L recs : Forall (in_data B) L -> ordered_from 0 L -> ordered_from 0 (L ++ place (length B) recs).
Proof.
  intros H1 H2. apply ordered_app. split; [exact H2|]. eapply ordered_weaken; [|apply place_ordered].
  apply log_end_le in H1. unfold log_end in H1. exact H1.
Qed.

(** the data file after the bytes of a batch were appended, the index still without them *)
Lemma db_data_appended data' d B L w :
  db_ok d B L -> ap_ok data' (B ++ w) -> (forall x, x ∈ gbounds (ap_mmap data') -> x ∈ gbounds (ap_mmap (d_data d)) \/ x = length (B ++ w)) ->
  fits (B ++ w) L -> db_ok (Db data' (d_idx d)) (B ++ w) L.
Proof.
  intros H [H1 H2] H3 H4. destruct H. split; simpl; auto.
  - eapply Forall_impl; [eassumption|]. intros p Hp. apply in_data_app, Hp.
  - intros x p Hx Hp. destruct (H3 x Hx) as [Hx' | ->]; [eauto|]. right.
    rewrite Forall_forall in do_in0. destruct (do_in0 _ Hp) as (_ & G & _). rewrite app_length. lia.
Qed.

(** the index after the entries of a batch were appended, the data being already there *)
Lemma db_index_appended k idx' d B L recs :
  cfg_ok k -> db_ok d (B ++ concat recs) L -> Forall (in_data B) L -> Forall (fun r => r <> []) recs ->
  (forall x, x ∈ gbounds (ap_mmap (d_data d)) -> x <= length B \/ x = length (B ++ concat recs)) ->
  fits (B ++ concat recs) (L ++ place (length B) recs) ->
  ap_ok idx' (ibytes (L ++ place (length B) recs)) ->
  (forall x, x ∈ gbounds (ap_mmap idx') -> x ∈ gbounds (ap_mmap (d_idx d)) \/ x = length (ibytes (L ++ place (length B) recs))) ->
  match g_file (ap_mmap (d_idx d)) with
  | None => g_file (ap_mmap idx') = None
  | Some f0 => exists f1, (f1 = f0 \/ f1 = set_len f0 (length (ibytes L) + Nat.max (length (ibytes (place (length B) recs))) (min_mmap k))) /\
                 length (ibytes L) + length (ibytes (place (length B) recs)) <= length f1 /\
                 g_file (ap_mmap idx') = Some (write_at f1 (length (ibytes L)) (ibytes (place (length B) recs)))
  end ->
  db_ok (Db (d_data d) idx') (B ++ concat recs) (L ++ place (length B) recs).
Proof.
  intros Hk H HB Hne Hgb Hfit [Hi1 Hi2] Hib Hif. assert (Hwl : length (ibytes (place (length B) recs)) = 16 * length recs) by (rewrite ibytes_length, place_length; reflexivity).
  rewrite !ibytes_length in *. destruct H. split; cbn [d_data d_idx] in *; auto.
  - intros x Hx. destruct (Hib x Hx) as [G| ->]; [auto|]. apply mod16_mul.
  - apply Forall_app. split; [assumption|]. apply Forall_forall. intros p Hp. apply place_in_data; assumption.
  - apply ordered_place; assumption.
  - intros x p Hx Hp. apply elem_of_app in Hp as [Hp|Hp]; [eauto|]. destruct (Hgb x Hx) as [G| ->].
    + left. apply place_ge in Hp as [Hp _]. lia.
    + right. apply place_ge in Hp as [_ Hp]. rewrite app_length. exact Hp.
  - intros f Hf. destruct (g_file (ap_mmap (d_idx d))) as [f0|] eqn:Ef0; [|congruence].
    destruct Hif as (f1 & Hf1 & Hl1 & Hf2). rewrite Hf in Hf2. injection Hf2 as ->.
    rewrite app_length, place_length in *. eapply (tail_append k (Some f0) L _ f0 _ f1); rewrite ?ibytes_length, ?place_length; auto.
Qed.

Lemma db_append_ok k fd fi d B L recs d' r :
  cfg_ok k -> db_ok d B L -> no_late_faults fd -> no_late_faults fi ->
  fits (B ++ concat recs) (L ++ place (length B) recs) ->
  db_append k fd fi d recs = (d', r) ->
  (recs = [] /\ d' = d /\ r = Ok None) \/
  (recs <> [] /\ ~ Forall (fun r => r <> []) recs /\ d' = d /\ r = Err EmptyRecord) \/
  (recs <> [] /\ Forall (fun r => r <> []) recs /\ r = Ok (Some (length L)) /\
     db_ok d' (B ++ concat recs) (L ++ place (length B) recs)) \/
  (recs <> [] /\ Forall (fun r => r <> []) recs /\ r = Err IoError /\ (db_ok d' B L \/ db_ok d' (B ++ concat recs) L) /\
     ~ (fd = no_faults /\ fi = no_faults)).
Proof.
  intros Hk H Hfd Hfi Hfit. unfold db_append, flat_append. destruct recs as [|r0 recs'] eqn:Erecs.
  { intro E; injection E as <- <-. auto. }
  cbn iota. rewrite <- Erecs in *. assert (Hne : recs <> []) by (rewrite Erecs; discriminate). clear Erecs.
  destruct (existsb (fun r => length r =? 0) recs) eqn:Eex.
  { intro E; injection E as <- <-. right. left. split; [exact Hne|]. split.
    - intro G. apply existsb_empty in G. congruence.
    - split; [|reflexivity]. destruct d; reflexivity. }
  assert (Eex2 := Eex). apply existsb_empty in Eex. assert (Hcn := concat_nonempty recs Hne Eex).
  match goal with |- context [appender_append k fd (d_data d) _ ?f] => set (fnd := f) end.
  assert (Hfnd : forall n, length (concat recs) <= n -> fnd n = (concat recs, None)).
  { intros n Hn. unfold fnd. rewrite take_ge by exact Hn. destruct (n <? length (concat recs)) eqn:E; [apply Nat.ltb_lt in E; lia|reflexivity]. }
  destruct (appender_append k fd (d_data d) (length (concat recs)) fnd) as [data' rd] eqn:Ed.
  assert (Hlen : length recs <> 0) by (destruct recs; [congruence|discriminate]).
  destruct (appender_append_ok k fd (d_data d) B (concat recs) fnd data' rd (ApOk _ _ (do_data _ _ _ H) (do_dsize _ _ _ H)) Hcn Hfd Hfnd Ed)
    as [(-> & Hdok & Hdb & Hdf)|(-> & Hdok & Hdb & Hdf & Hnf)].
  - assert (Hfit1 : fits (B ++ concat recs) L) by (destruct Hfit as [F1 F2]; rewrite app_length in F2; split; [exact F1|lia]).
    assert (H1 := db_data_appended _ _ _ _ _ H Hdok Hdb Hfit1).
    unfold idx_append. rewrite (do_dsize _ _ _ H).
    destruct (locations (length B) recs) as [|l0 ls] eqn:El; [destruct recs; [congruence|discriminate]|]. cbn iota. rewrite <- El.
    rewrite existsb_locations, Eex2.
    set (w := ibytes (place (length B) recs)).
    assert (Hw : flat_map entry_bytes (locations (length B) recs) = w) by (unfold w, ibytes; rewrite place_ents; reflexivity).
    assert (Hll : 8 * 2 * length (locations (length B) recs) = length w).
    { unfold w. rewrite ibytes_length, place_length, <- place_ents. unfold ents. rewrite map_length, place_length. lia. }
    rewrite Hw, Hll.
    match goal with |- context [appender_append k fi (d_idx d) _ ?f] => set (fni := f) end.
    assert (Hfni : forall n, length w <= n -> fni n = (w, None)).
    { intros n Hn. unfold fni. destruct (n <? length w) eqn:E; [apply Nat.ltb_lt in E; lia|reflexivity]. }
    destruct (appender_append k fi (d_idx d) (length w) fni) as [idx' ri] eqn:Ei.
    assert (Hwl : length w = 16 * length recs) by (unfold w; rewrite ibytes_length, place_length; reflexivity).
    assert (Hwn : w <> []) by (intro G; rewrite G in Hwl; simpl in Hwl; lia).
    destruct (appender_append_ok k fi (d_idx d) (ibytes L) w fni idx' ri
      (ApOk _ _ (do_idx _ _ _ H) ltac:(rewrite ibytes_length; apply (do_isize _ _ _ H))) Hwn Hfi Hfni Ei)
      as [(-> & Hiok & Hib & Hif)|(-> & Hiok & Hib & Hif & Hnf)].
    + intro E; injection E as <- <-. right. right. left. split; [exact Hne|]. split; [exact Eex|]. split.
      { do 2 f_equal. change (idx_len (d_idx d)) with (db_len d). apply (db_len_ok _ _ _ H). }
      unfold w in Hiok, Hib, Hif. rewrite <- ibytes_app in Hiok, Hib.
      apply (db_index_appended k idx' (Db data' (d_idx d)) B L recs); auto.
      * apply (do_in _ _ _ H).
      * intros x Hx. destruct (Hdb x Hx) as [G|G]; [left|auto]. eapply gbounds_le; [apply (do_data _ _ _ H)|exact G].
    + intro E; injection E as <- <-. right. right. right. split; [exact Hne|]. split; [exact Eex|]. split; [reflexivity|]. split; [|tauto].
      right. destruct H1. destruct Hiok as [Hi1 Hi2]. split; cbn [d_data d_idx] in *; auto.
      * rewrite Hi2, ibytes_length. reflexivity.
      * unfold aligned. rewrite Hib. assumption.
      * rewrite Hwl in Hif. eapply tail_grown; [exact Hk|apply ibytes_length|exact Hif|]. assumption.
  - intro E; injection E as <- <-. right. right. right. split; [exact Hne|]. split; [exact Eex|]. split; [reflexivity|]. split; [|tauto].
    left. destruct H. destruct Hdok. split; simpl; auto. intros x p Hx. rewrite Hdb in Hx. eauto.
Qed.

(** ** opening *)
Lemma idx_new_ok f n : tail_unused f n -> 16 * n <= length f -> (N.of_nat (length f) < 2 ^ 64)%N ->
  (forall j, j < n -> from_le (sub f (16 * j + 8) 8) <> 0%N) ->
  exists ap, idx_new (Some f) = Ok ap /\ ap_ok ap (take (16 * n) f) /\ aligned (ap_mmap ap) /\ g_file (ap_mmap ap) = Some f.
Proof.
  intros [Hal Ht] Hn Hfit Hused. apply Nat.mod_divides in Hal as [len Hlen]; [|lia].
  unfold idx_new, appender_new. rewrite gmm_new_none_ok.
  destruct (gmm_new_ok f (length f)) as (g & -> & Hg & Hgf & Hgb); [lia|]. rewrite firstn_all in Hg.
  set (ap := Appender g (gmm_len g)).
  assert (Hap : ap_ok ap f) by (split; [exact Hg|apply (gmm_len_ok _ _ Hg)]).
  assert (Hala : aligned (ap_mmap ap)) by (intros x Hx; apply Hgb in Hx as ->; rewrite Hlen; apply mod16_mul).
  assert (Hil : idx_len ap = len).
  { unfold idx_len. rewrite (ap_sz _ _ Hap), Hlen, Nat.div_div by lia. change (8 * 2) with 16. rewrite Nat.mul_comm. apply Nat.div_mul. lia. }
  assert (Hat : forall i, i < len -> idx_length_at ap i = Ok (from_le (sub f (16 * i + 8) 8))).
  { intros i Hi. unfold idx_length_at. destruct (idx_get_raw ap f i Hg Hala) as [-> _]; [lia|lia|reflexivity]. }
  unfold idx_last. rewrite Hil. destruct (len =? 0) eqn:E0.
  { apply Nat.eqb_eq in E0. exists ap. split; [reflexivity|]. rewrite take_ge by lia. auto. }
  apply Nat.eqb_neq in E0. destruct (idx_get_raw ap f (len - 1) Hg Hala) as [-> _]; [lia|lia|].
  destruct (N.eqb (from_le (sub f (16 * (len - 1) + 8) 8)) 0) eqn:El.
  - apply N.eqb_eq in El. unfold idx_find_end. rewrite Hil.
    destruct (find_end_spec (idx_length_at ap) (fun i => from_le (sub f (16 * i + 8) 8)) len ltac:(lia) Hat) as (m & r & -> & Hm & H1 & H2 & _).
    assert (m = n) as ->.
    { destruct (Nat.lt_trichotomy m n) as [G|[G|G]]; [|exact G|].
      - exfalso. apply (Hused m G). apply H2. lia.
      - exfalso. apply H1; [lia|]. apply Ht; lia. }
    replace (2 * 8 * n) with (16 * n) by lia.
    destruct (gmm_new_ok f (16 * n) Hn) as (g2 & -> & Hg2 & Hgf2 & Hgb2). exists (Appender g2 (gmm_len g2)). split; [reflexivity|].
    split; [split; [exact Hg2|apply (gmm_len_ok _ _ Hg2)]|]. split; [|exact Hgf2].
    intros x Hx. apply Hgb2 in Hx as ->. apply mod16_mul.
  - apply N.eqb_neq in El. exists ap. split; [reflexivity|]. assert (n = len) as ->.
    { destruct (decide (n = len)); [assumption|]. exfalso. apply El. apply Ht; lia. }
    rewrite take_ge by lia. auto.
Qed.

(** the two files hold the log L *)
Record files_ok (df xf : list byte) (L : list placed) : Prop := FilesOk {
  fo_idx : take (16 * length L) xf = ibytes L;
  fo_ilen : 16 * length L <= length xf;
  fo_tail : tail_unused xf (length L);
  fo_in : Forall (in_data df) L;
  fo_ord : ordered_from 0 L
}.
Definition files_fit (df xf : list byte) : Prop := (N.of_nat (length df) < 2 ^ 64)%N /\ (N.of_nat (length xf) < 2 ^ 64)%N.

Lemma in_data_take B e p : in_data B p -> p_end p <= e -> in_data (take e B) p.
Proof.
  intros (H1 & H2 & H3) He. split; [exact H1|]. unfold p_end in *. rewrite take_length. split; [lia|]. rewrite sub_take by lia. exact H3.
Qed.

Lemma db_new_ok df xf L : files_ok df xf L -> files_fit df xf ->
  exists d, db_new (Some df) (Some xf) = Ok d /\ db_ok d (take (log_end L) df) L /\ db_files d = (Some df, Some xf).
Proof.
  intros H [Fd Fx]. destruct H as [H1 H2 H3 H4 H5]. unfold db_new.
  assert (Hin : forall j p, L !! j = Some p -> sub xf (16 * j) 8 = to_le 8 (N.of_nat p.1) /\ sub xf (16 * j + 8) 8 = to_le 8 (N.of_nat (length p.2)) /\
     (N.of_nat p.1 < 2 ^ 64)%N /\ (N.of_nat (length p.2) < 2 ^ 64)%N /\ p.2 <> []).
  { intros j p Hj. assert (Hlt := lookup_lt_Some _ _ _ Hj).
    assert (He : ents L !! j = Some (p.1, length p.2)) by (unfold ents; rewrite list_lookup_fmap, Hj; reflexivity).
    destruct (entries_lookup _ _ _ He) as [E1 E2]. fold (ibytes L) in E1, E2. rewrite <- H1 in E1, E2. rewrite sub_take in E1, E2 by lia.
    rewrite Forall_forall in H4. destruct (H4 p (elem_of_list_lookup_2 _ _ _ Hj)) as (G1 & G2 & _). unfold p_end in G2. repeat split; auto; lia. }
  destruct (idx_new_ok xf (length L)) as (ap & -> & Hap & Hal & Hf); auto.
  { intros j Hj. destruct (lookup_lt_is_Some_2 L j Hj) as [p Hp]. destruct (Hin _ _ Hp) as (_ & -> & _ & G & Hne). rewrite from_to_le_8 by exact G.
    destruct (p.2); [congruence|]. simpl. lia. }
  rewrite H1 in Hap. unfold idx_is_correct. destruct Hap as [Hg Hs]. rewrite Hs, ibytes_length, mod16_mul. simpl.
  assert (Hil : idx_len ap = length L).
  { unfold idx_len. rewrite Hs, ibytes_length, Nat.div_div by lia. change (8 * 2) with 16. rewrite Nat.mul_comm. apply Nat.div_mul. lia. }
  assert (Hlast : exists l, idx_last ap = Ok l /\ N.to_nat (match l with None => 0%N | Some (o, n) => (o + n)%N end) = log_end L).
  { unfold idx_last, log_end. rewrite Hil. destruct (length L =? 0) eqn:E.
    - apply Nat.eqb_eq, nil_length_inv in E as ->. exists None. auto.
    - apply Nat.eqb_neq in E. rewrite last_lookup. destruct (lookup_lt_is_Some_2 L (length L - 1)) as [p Hp]; [lia|].
      replace (Nat.pred (length L)) with (length L - 1) by lia. rewrite Hp.
      destruct (idx_get_raw ap (ibytes L) (length L - 1) Hg Hal) as [-> _]; [rewrite ibytes_length; lia|lia|].
      eexists; split; [reflexivity|]. cbn iota. rewrite <- H1, !sub_take by lia. destruct (Hin _ _ Hp) as (-> & -> & G1 & G2 & _).
      rewrite !from_to_le_8 by assumption. unfold p_end. lia. }
  destruct Hlast as (l & -> & ->). unfold appender_new.
  destruct (gmm_new_ok df (log_end L)) as (g & -> & Hg2 & Hgf & Hgb); [apply log_end_le; exact H4|].
  eexists; split; [reflexivity|]. split; [|unfold db_files; simpl; rewrite Hgf, Hf; reflexivity].
  assert (Hle := log_end_le _ _ H4).
  split; simpl; auto.
  - rewrite (gmm_len_ok _ _ Hg2). reflexivity.
  - rewrite Hs. apply ibytes_length.
  - rewrite Forall_forall in H4 |- *. intros p Hp. apply in_data_take; [auto|]. eapply ordered_le_end; eauto.
  - intros x p Hx Hp. apply Hgb in Hx as ->. right. eapply ordered_le_end; eauto.
  - split; [rewrite take_length|]; lia.
  - intros f. rewrite Hf. intro G; injection G as <-. exact H3.
Qed.
