From Coq Require Import Lia ZArith.
From stdpp Require Import numbers list.
From Verif Require Import FraosModel.

(** ** binary search *)
Lemma bsearch_loop_spec {A} (cmp : A -> comparison) (l : list A) :
  (forall i j x y, i <= j -> l !! i = Some x -> l !! j = Some y -> (cmp y = Lt -> cmp x = Lt) /\ (cmp x = Gt -> cmp y = Gt)) ->
  forall fuel lo hi, hi - lo < fuel -> lo <= hi -> hi <= length l ->
  (forall i x, i < lo -> l !! i = Some x -> cmp x = Lt) ->
  (forall i x, hi <= i -> l !! i = Some x -> cmp x = Gt) ->
  match bsearch_loop fuel cmp l lo hi with
  | inl p => exists x, l !! p = Some x /\ cmp x = Eq
  | inr p => p <= length l /\ (forall i x, i < p -> l !! i = Some x -> cmp x = Lt) /\
                (forall i x, p <= i -> l !! i = Some x -> cmp x = Gt)
  end.
Proof.
  intro Hmono. induction fuel as [|fuel IH]; intros lo hi Hf Hle Hhi Hlo Hup; [lia|].
  cbn [bsearch_loop]. destruct (lo <? hi) eqn:E.
  - apply Nat.ltb_lt in E. assert (Hmid : lo <= lo + (hi - lo) / 2 < hi).
    { split; [lia|]. assert ((hi - lo) / 2 < hi - lo) by (apply Nat.div_lt; lia). lia. }
    set (mid := lo + (hi - lo) / 2) in *.
    destruct (lookup_lt_is_Some_2 l mid) as [x Hx]; [lia|]. rewrite Hx. destruct (cmp x) eqn:C.
    + eauto.
    + apply IH; try lia.
      * intros i y Hi Hy. destruct (Hmono i mid y x) as [H1 _]; try assumption; [lia|auto].
      * exact Hup.
    + apply IH; try lia.
      * exact Hlo.
      * intros i y Hi Hy. destruct (Hmono mid i x y) as [_ H1]; try assumption; auto.
  - apply Nat.ltb_ge in E. assert (lo = hi) by lia. subst hi. split; [lia|]. split; assumption.
Qed.

Lemma bsearch_spec {A} (cmp : A -> comparison) (l : list A) :
  (forall i j x y, i <= j -> l !! i = Some x -> l !! j = Some y -> (cmp y = Lt -> cmp x = Lt) /\ (cmp x = Gt -> cmp y = Gt)) ->
  match bsearch cmp l with
  | inl p => exists x, l !! p = Some x /\ cmp x = Eq
  | inr p => p <= length l /\ (forall i x, i < p -> l !! i = Some x -> cmp x = Lt) /\
                (forall i x, p <= i -> l !! i = Some x -> cmp x = Gt)
  end.
Proof.
  intro H. apply bsearch_loop_spec; [exact H|lia|lia|lia| |].
  - intros i x Hi; lia.
  - intros i x Hi Hx. apply lookup_lt_Some in Hx. lia.
Qed.

(** ** chunks *)
Definition bounds_ok (l : list nat) : Prop :=
  (forall i x, l !! i = Some x -> 0 < x) /\ (forall i j x y, i < j -> l !! i = Some x -> l !! j = Some y -> x < y).

Lemma last_lookup' {A} (l : list A) : last l = l !! (length l - 1).
Proof. rewrite last_lookup. replace (length l - 1) with (pred (length l)) by lia. reflexivity. Qed.

Lemma bounds_ok_snoc l e : bounds_ok l -> default 0 (last l) < e -> bounds_ok (l ++ [e]).
Proof.
  intros [H1 H2] He. assert (Hlt : forall i x, l !! i = Some x -> x < e).
  { intros i x Hx. assert (Hi := lookup_lt_Some _ _ _ Hx). rewrite last_lookup' in He.
    destruct (lookup_lt_is_Some_2 l (length l - 1)) as [z Hz]; [lia|]. rewrite Hz in He. simpl in He.
    destruct (decide (i = length l - 1)) as [->|Hn]; [congruence|].
    assert (x < z) by (eapply (H2 i (length l - 1)); eauto; lia). lia. }
  split.
  - intros i x Hx. apply lookup_app_Some in Hx as [Hx|[Hi Hx]]; [eauto|].
    apply list_lookup_singleton_Some in Hx as [_ <-]. lia.
  - intros i j x y Hij Hx Hy. apply lookup_app_Some in Hx as [Hx|[Hi Hx]].
    + apply lookup_app_Some in Hy as [Hy|[Hj Hy]]; [eauto|].
      apply list_lookup_singleton_Some in Hy as [_ <-]. eauto.
    + apply list_lookup_singleton_Some in Hx as [Hx <-].
      apply lookup_app_Some in Hy as [Hy|[Hj Hy]]; [apply lookup_lt_Some in Hy; lia|].
      apply list_lookup_singleton_Some in Hy as [Hy _]. lia.
Qed.

Lemma bounds_ok_nil : bounds_ok [].
Proof. split; intros i; intros *; rewrite lookup_nil; discriminate. Qed.

Lemma bounds_ok_one e : 0 < e -> bounds_ok [e].
Proof.
  intro H. apply (bounds_ok_snoc []); [|exact H]. split; intros i; intros *; rewrite lookup_nil; discriminate.
Qed.

Lemma c_append_ok c e : bounds_ok (c_bounds c) -> c_size c < e ->
  c_append c e = Ok (Chunk (c_start c) (c_bounds c ++ [e])) /\ bounds_ok (c_bounds c ++ [e]).
Proof.
  intros Hb He. unfold c_append. destruct (e =? 0) eqn:E0; [apply Nat.eqb_eq in E0; lia|].
  destruct (e <=? c_size c) eqn:E1; [apply Nat.leb_le in E1; lia|]. split; [reflexivity|].
  apply bounds_ok_snoc; assumption.
Qed.

Lemma c_size_snoc s l e : c_size (Chunk s (l ++ [e])) = e.
Proof. unfold c_size. simpl. rewrite last_snoc. reflexivity. Qed.

(** the next bound after an address inside the chunk *)
Lemma c_find_in c address : bounds_ok (c_bounds c) -> c_start c <= address < c_end c ->
  exists b, b ∈ c_bounds c /\ address - c_start c < b /\ b <= c_size c /\
    c_find c address = Ok (Some (address - c_start c, b - (address - c_start c))).
Proof.
  intros [Hpos Hinc] Hin. unfold c_end in Hin. unfold c_find, c_end. set (rel := address - c_start c).
  assert (Hrel : rel < c_size c) by lia.
  destruct ((c_size c =? 0) || (address <? c_start c) || (c_start c + c_size c <=? address)) eqn:G.
  { exfalso. rewrite !orb_true_iff, Nat.eqb_eq, Nat.ltb_lt, Nat.leb_le in G. lia. }
  clear G. assert (Hsz : exists z, c_bounds c !! (length (c_bounds c) - 1) = Some z /\ z = c_size c /\ 0 < length (c_bounds c)).
  { unfold c_size in *. rewrite last_lookup' in *. destruct (c_bounds c !! (length (c_bounds c) - 1)) as [z|] eqn:Ez; simpl in *; [|lia].
    exists z. split; [reflexivity|]. split; [reflexivity|]. apply lookup_lt_Some in Ez. lia. }
  destruct Hsz as (z & Hz & Hzs & Hlen).
  assert (Hle : forall i b, c_bounds c !! i = Some b -> b <= c_size c).
  { intros i b Hb. assert (Hi := lookup_lt_Some _ _ _ Hb). destruct (decide (i = length (c_bounds c) - 1)) as [->|Hn]; [rewrite Hb in Hz; injection Hz; lia|].
    assert (b < z) by (apply (Hinc i (length (c_bounds c) - 1)); auto; lia). lia. }
  destruct (rel =? 0) eqn:E0.
  - apply Nat.eqb_eq in E0. destruct (c_bounds c) as [|b bs] eqn:Eb; [simpl in Hlen; lia|].
    exists b. simpl. rewrite E0. split; [left|]. split; [apply (Hpos 0); reflexivity|]. split; [apply (Hle 0); reflexivity|].
    rewrite Nat.sub_0_r. reflexivity.
  - apply Nat.eqb_neq in E0. pose proof (bsearch_spec (fun b => Nat.compare b rel) (c_bounds c)) as HB.
    assert (Hm : forall i j x y, i <= j -> c_bounds c !! i = Some x -> c_bounds c !! j = Some y ->
      (Nat.compare y rel = Lt -> Nat.compare x rel = Lt) /\ (Nat.compare x rel = Gt -> Nat.compare y rel = Gt)).
    { intros i j x y Hij Hx Hy. rewrite !Nat.compare_lt_iff, !Nat.compare_gt_iff.
      destruct (decide (i = j)) as [->|]; [rewrite Hx in Hy; injection Hy as ->; lia|].
      assert (x < y) by (eapply (Hinc i j); eauto; lia). lia. }
    specialize (HB Hm). destruct (bsearch _ _) as [p|p].
    + destruct HB as (x & Hx & Hc). apply Nat.compare_eq in Hc. subst x. rewrite Hx.
      assert (Hp := lookup_lt_Some _ _ _ Hx).
      destruct (decide (p = length (c_bounds c) - 1)) as [->|Hn].
      { rewrite Hx in Hz. injection Hz as Hz. lia. }
      destruct (lookup_lt_is_Some_2 (c_bounds c) (p + 1)) as [b Hb]; [lia|]. rewrite Hb.
      exists b. split; [eapply elem_of_list_lookup_2; eauto|]. split; [apply (Hinc p (p+1)); auto; lia|].
      split; [eauto|reflexivity].
    + destruct HB as (Hp & Hlow & Hup).
      assert (p < length (c_bounds c)).
      { destruct (decide (p = length (c_bounds c))) as [->|]; [|lia].
        specialize (Hlow (length (c_bounds c) - 1) z ltac:(lia) Hz). apply Nat.compare_lt_iff in Hlow. lia. }
      destruct (lookup_lt_is_Some_2 (c_bounds c) p) as [b Hb]; [lia|]. rewrite Hb.
      specialize (Hup p b (le_n _) Hb). apply Nat.compare_gt_iff in Hup.
      exists b. split; [eapply elem_of_list_lookup_2; eauto|]. split; [lia|]. split; [eauto|reflexivity].
Qed.

Lemma c_find_out c address : address < c_start c \/ c_end c <= address -> c_find c address = Ok None.
Proof.
  intro H. unfold c_find. destruct ((c_size c =? 0) || (address <? c_start c) || (c_end c <=? address)) eqn:G; [reflexivity|].
  rewrite !orb_false_iff, Nat.eqb_neq, Nat.ltb_ge, Nat.leb_gt in G. lia.
Qed.

(** ** the list of chunks *)
Fixpoint chunks_ok (from : nat) (idx : list chunk) : Prop :=
  match idx with
  | [] => True
  | c :: r => c_start c = from /\ bounds_ok (c_bounds c) /\ 0 < c_size c /\ chunks_ok (c_end c) r
  end.
Fixpoint chunks_end (from : nat) (idx : list chunk) : nat :=
  match idx with [] => from | c :: r => chunks_end (c_end c) r end.

Lemma i_len_end idx : i_len idx = chunks_end 0 idx.
Proof.
  unfold i_len. assert (forall from, chunks_end from idx = match last idx with Some c => c_end c | None => from end) as H.
  { induction idx as [|c idx IH]; intro from; [reflexivity|]. cbn [chunks_end]. rewrite IH.
    destruct idx as [|c' idx]; [reflexivity|]. rewrite last_cons_cons. destruct (last (c' :: idx)) eqn:E; [reflexivity|].
    apply last_None in E. discriminate. }
  rewrite H. reflexivity.
Qed.

Lemma chunks_ok_app from idx c : chunks_ok from idx -> c_start c = chunks_end from idx -> bounds_ok (c_bounds c) -> 0 < c_size c ->
  chunks_ok from (idx ++ [c]) /\ chunks_end from (idx ++ [c]) = c_end c.
Proof.
  revert from. induction idx as [|d idx IH]; intros from H Hs Hb Hz; simpl in *; [auto|].
  destruct H as (H1 & H2 & H3 & H4). destruct (IH _ H4 Hs Hb Hz) as [I1 I2]. auto.
Qed.

Lemma chunks_lookup idx : forall from, chunks_ok from idx -> forall n c, idx !! n = Some c ->
  bounds_ok (c_bounds c) /\ from <= c_start c /\ 0 < c_size c /\ c_end c <= chunks_end from idx.
Proof.
  induction idx as [|d idx IH]; intros from H n c Hc; [rewrite lookup_nil in Hc; discriminate|].
  destruct H as (H1 & H2 & H3 & H4).
  assert (Hge : forall idx from, chunks_ok from idx -> from <= chunks_end from idx).
  { clear. induction idx as [|c idx IH]; intros from H; simpl in *; [lia|].
    destruct H as (H1 & H2 & H3 & H4). apply IH in H4. unfold c_end in *. lia. }
  destruct n as [|n]; simpl in Hc.
  - injection Hc as ->. simpl. split; [exact H2|]. split; [lia|]. split; [exact H3|]. apply Hge. exact H4.
  - destruct (IH _ H4 n c Hc) as (I1 & I2 & I3 & I4). simpl. unfold c_end in *. repeat split; try apply I1; try lia.
Qed.

Lemma chunks_order idx : forall from, chunks_ok from idx -> forall i j c d, i < j -> idx !! i = Some c -> idx !! j = Some d ->
  c_end c <= c_start d.
Proof.
  induction idx as [|e idx IH]; intros from H i j c d Hij Hc Hd; [rewrite lookup_nil in Hc; discriminate|].
  destruct H as (H1 & H2 & H3 & H4). destruct j as [|j]; [lia|]. simpl in Hd. destruct i as [|i]; simpl in Hc.
  - injection Hc as ->. apply (chunks_lookup _ _ H4 _ _ Hd).
  - eapply (IH _ H4 i j); eauto. lia.
Qed.

Lemma chunks_cover idx : forall from address, chunks_ok from idx -> from <= address < chunks_end from idx ->
  exists n c, idx !! n = Some c /\ c_start c <= address < c_end c.
Proof.
  induction idx as [|e idx IH]; intros from address H Ha; simpl in *; [lia|].
  destruct H as (H1 & H2 & H3 & H4). destruct (decide (address < c_end e)) as [Hl|Hl].
  - exists 0, e. split; [reflexivity|]. lia.
  - destruct (IH _ address H4) as (n & c & Hc & Hr); [lia|]. exists (S n), c. auto.
Qed.

(** the mapping lookup is exact *)
Lemma i_find_spec idx address : chunks_ok 0 idx ->
  if address <? i_len idx then
    exists n c b, idx !! n = Some c /\ c_start c <= address < c_end c /\ b ∈ c_bounds c /\
      address - c_start c < b /\ b <= c_size c /\
      i_find idx address = Ok (Some (n, address - c_start c, b - (address - c_start c)))
  else i_find idx address = Ok None.
Proof.
  intro Hok. unfold i_find.
  set (key := fun c : chunk => if (c_start c <=? address) && (address <? c_end c) then address else c_start c).
  assert (Hkey : forall n c, idx !! n = Some c ->
    (Nat.compare (key c) address = Lt <-> c_end c <= address) /\
    (Nat.compare (key c) address = Gt <-> address < c_start c) /\
    (Nat.compare (key c) address = Eq <-> c_start c <= address < c_end c)).
  { intros n c Hc. destruct (chunks_lookup _ _ Hok _ _ Hc) as (_ & _ & Hz & _). unfold key.
    destruct ((c_start c <=? address) && (address <? c_end c)) eqn:E.
    - rewrite andb_true_iff, Nat.leb_le, Nat.ltb_lt in E. rewrite Nat.compare_refl.
      repeat split; try discriminate; lia.
    - rewrite andb_false_iff, Nat.leb_gt, Nat.ltb_ge in E. rewrite Nat.compare_lt_iff, Nat.compare_gt_iff, Nat.compare_eq_iff.
      unfold c_end in *. lia. }
  pose proof (bsearch_spec (fun c => Nat.compare (key c) address) idx) as HB.
  assert (Hm : forall i j x y, i <= j -> idx !! i = Some x -> idx !! j = Some y ->
      (Nat.compare (key y) address = Lt -> Nat.compare (key x) address = Lt) /\
      (Nat.compare (key x) address = Gt -> Nat.compare (key y) address = Gt)).
  { intros i j x y Hij Hx Hy. destruct (Hkey _ _ Hx) as (A1 & A2 & _), (Hkey _ _ Hy) as (B1 & B2 & _).
    rewrite A1, A2, B1, B2. destruct (decide (i = j)) as [->|]; [rewrite Hx in Hy; injection Hy as ->; lia|].
    assert (c_end x <= c_start y) by (eapply (chunks_order _ _ Hok i j); eauto; lia).
    unfold c_end in *. lia. }
  specialize (HB Hm). fold key. destruct (address <? i_len idx) eqn:E.
  - apply Nat.ltb_lt in E. rewrite i_len_end in E.
    destruct (chunks_cover _ _ address Hok) as (n & c & Hc & Hr); [lia|].
    destruct (bsearch _ idx) as [p|p].
    + destruct HB as (d & Hd & Hcmp). apply (Hkey _ _ Hd) in Hcmp. rewrite Hd.
      destruct (c_find_in d address) as (b & Hb & H1 & H2 & H3); [apply (chunks_lookup _ _ Hok _ _ Hd)|exact Hcmp|].
      exists p, d, b. rewrite H3. auto 10.
    + exfalso. destruct HB as (_ & Hlow & Hup). destruct (Hkey _ _ Hc) as (A1 & A2 & A3).
      destruct (decide (n < p)).
      * specialize (Hlow n c ltac:(assumption) Hc). apply A1 in Hlow. lia.
      * specialize (Hup n c ltac:(lia) Hc). apply A2 in Hup. lia.
  - apply Nat.ltb_ge in E. destruct (bsearch _ idx) as [p|p]; [|reflexivity].
    destruct HB as (d & Hd & Hcmp). apply (Hkey _ _ Hd) in Hcmp.
    destruct (chunks_lookup _ _ Hok _ _ Hd) as (_ & _ & _ & Hend). rewrite i_len_end in E. lia.
Qed.

(** ** byte lists *)
Definition sub (l : list byte) (p n : nat) : list byte := take n (drop p l).

Lemma sub_length l p n : p + n <= length l -> length (sub l p n) = n.
Proof. intro H. unfold sub. rewrite take_length, drop_length. lia. Qed.

Lemma sub_app_l l r p n : p + n <= length l -> sub (l ++ r) p n = sub l p n.
Proof.
  intro H. unfold sub. rewrite drop_app_le by lia. rewrite take_app_le; [reflexivity|]. rewrite drop_length. lia.
Qed.

Lemma sub_sub l p n q m : q + m <= n -> sub (sub l p n) q m = sub l (p + q) m.
Proof.
  intro H. unfold sub. rewrite skipn_firstn_comm. rewrite take_take. rewrite drop_drop. f_equal. lia.
Qed.

Lemma sub_take l p n m : p + n <= m -> sub (take m l) p n = sub l p n.
Proof. intro H. unfold sub. rewrite skipn_firstn_comm, take_take. f_equal. lia. Qed.

Lemma take_sub l p n m : take m (sub l p n) = sub l p (Nat.min m n).
Proof. unfold sub. rewrite take_take. reflexivity. Qed.

Lemma set_len_length f n : length (set_len f n) = n.
Proof. apply resize_length. Qed.

Lemma set_len_take f n m : m <= n -> m <= length f -> take m (set_len f n) = take m f.
Proof.
  intros H1 H2. unfold set_len. destruct (decide (n <= length f)).
  - rewrite resize_le by lia. rewrite take_take. rewrite Nat.min_l by lia. reflexivity.
  - rewrite resize_ge by lia. apply take_app_le. exact H2.
Qed.

Lemma set_len_lookup f n j x : set_len f n !! j = Some x -> x = 0%N \/ f !! j = Some x.
Proof.
  unfold set_len. intro H. destruct (decide (j < n)) as [Hj|Hj].
  - destruct (decide (j < length f)) as [Hl|Hl].
    + rewrite lookup_resize in H by assumption. auto.
    + rewrite lookup_resize_new in H by lia. left. congruence.
  - rewrite lookup_resize_old in H by lia. discriminate.
Qed.

Lemma write_at_length f p w : p + length w <= length f -> length (write_at f p w) = length f.
Proof. intro H. unfold write_at. rewrite !app_length, take_length, drop_length. lia. Qed.

Lemma write_at_take f p w : p + length w <= length f -> take (p + length w) (write_at f p w) = take p f ++ w.
Proof.
  intro H. unfold write_at. rewrite app_assoc. apply take_app_alt. rewrite app_length, take_length. lia.
Qed.

Lemma write_at_take_le f p w m : p + length w <= length f -> m <= p -> take m (write_at f p w) = take m f.
Proof.
  intros H Hm. unfold write_at. rewrite take_app_le by (rewrite take_length; lia). rewrite take_take. rewrite Nat.min_l by lia. reflexivity.
Qed.

Lemma write_at_lookup_ge f p w j : p + length w <= length f -> p + length w <= j -> write_at f p w !! j = f !! j.
Proof.
  intros H Hj. unfold write_at. rewrite lookup_app_r by (rewrite take_length; lia). rewrite take_length.
  rewrite lookup_app_r by lia. rewrite lookup_drop. f_equal. lia.
Qed.

Lemma view_slice_ok v a n : 0 < n -> a + n <= view_len v -> view_slice v a (a + n) = view_sub v a n.
Proof.
  intros H1 H2. unfold view_slice.
  destruct ((view_len v =? 0) || (view_len v <=? a) || (a + n =? 0)) eqn:E.
  - rewrite !orb_true_iff, !Nat.eqb_eq, Nat.leb_le in E. lia.
  - f_equal. destruct (a <=? Nat.min (a + n - 1) (view_len v - 1)) eqn:G.
    + lia.
    + apply Nat.leb_gt in G. lia.
Qed.

(** ** the growable mapping holds the bytes [B] *)
Definition view_ok (F : option file) (B : list byte) (c : chunk) (v : view) : Prop :=
  match v with
  | VFile off len => is_Some F /\ off = c_start c /\ len = c_size c
  | VAnon bs => F = None /\ bs = sub B (c_start c) (c_size c)
  end.
Definition active_ok (F : option file) (B : list byte) (ilen : nat) (a : option active) : Prop :=
  match a with
  | None => length B = ilen
  | Some a =>
      c_start (a_bounds a) = ilen /\ bounds_ok (c_bounds (a_bounds a)) /\ 0 < c_size (a_bounds a) /\
      ilen + c_size (a_bounds a) = length B /\ c_size (a_bounds a) <= a_len a /\
      match a_map a with
      | AFile off len => off = ilen /\ len = a_len a /\ exists f, F = Some f /\ ilen + a_len a <= length f
      | AAnon buf => F = None /\ length buf = a_len a /\ take (c_size (a_bounds a)) buf = drop ilen B
      end
  end.
Record gmm_ok (g : gmm) (B : list byte) : Prop := GmmOk {
  ok_chunks : chunks_ok 0 (g_index g);
  ok_maps : Forall2 (view_ok (g_file g) B) (g_index g) (g_maps g);
  ok_active : active_ok (g_file g) B (i_len (g_index g)) (g_active g);
  ok_file : forall f, g_file g = Some f -> length B <= length f /\ take (length B) f = B
}.
(** the offsets at which some mapping entry ends *)
Definition gbounds (g : gmm) : list nat :=
  flat_map (fun c => map (Nat.add (c_start c)) (c_bounds c))
    (g_index g ++ match g_active g with Some a => [a_bounds a] | None => [] end).

Lemma gbounds_elem g x : x ∈ gbounds g <->
  exists c b, (c ∈ g_index g \/ exists a, g_active g = Some a /\ c = a_bounds a) /\ b ∈ c_bounds c /\ x = c_start c + b.
Proof.
  unfold gbounds. rewrite elem_of_list_In, in_flat_map. split.
  - intros (c & Hc & Hx). apply in_map_iff in Hx as (b & <- & Hb).
    apply elem_of_list_In in Hc. apply elem_of_list_In in Hb. exists c, b. split; [|auto]. apply elem_of_app in Hc as [Hc|Hc]; [auto|].
    right. destruct (g_active g) as [a|]; [|inversion Hc]. apply elem_of_list_singleton in Hc. eauto.
  - intros (c & b & Hc & Hb & ->). exists c. split.
    + apply elem_of_list_In. apply elem_of_app. destruct Hc as [Hc|(a & -> & ->)]; [auto|]. right. left.
    + apply in_map_iff. exists b. split; [reflexivity|]. apply elem_of_list_In. exact Hb.
Qed.

Lemma gmm_len_ok g B : gmm_ok g B -> gmm_len g = length B.
Proof.
  intros [Hc Hm Ha Hf]. unfold gmm_len. destruct (g_active g) as [a|]; simpl in Ha; [|lia].
  unfold c_end. lia.
Qed.

(** the file holds the bytes B, whatever its length *)
Definition holds (F : option file) (B : list byte) : Prop := forall f, F = Some f -> length B <= length f /\ take (length B) f = B.

Lemma read_file F B f off len : holds F B -> F = Some f -> off + len <= length B ->
  view_read F (VFile off len) = Some (sub B off len).
Proof.
  intros Hok Hf Hl. destruct (Hok f Hf) as [H1 H2]. simpl. rewrite Hf.
  destruct (off + len <=? length f) eqn:E; [|apply Nat.leb_gt in E; lia].
  f_equal. change (sub f off len = sub B off len). rewrite <- H2. rewrite sub_take by lia. reflexivity.
Qed.

(** reading, from the file itself or from one cut or extended behind the bytes *)
Lemma get_ref_in_file g B F address : gmm_ok g B -> (is_Some (g_file g) -> is_Some F) -> holds F B -> address < length B ->
  exists n, 0 < n /\ address + n <= length B /\ address + n ∈ gbounds g /\
    get_ref (Gmm F (g_index g) (g_maps g) (g_active g)) address = Ok (Some (sub B address n)).
Proof.
  intros Hok HF1 HF2 Ha. assert (Hok' := Hok). destruct Hok' as [Hc Hm Hact Hf]. unfold get_ref. cbn [g_file g_index g_maps g_active].
  pose proof (i_find_spec (g_index g) address Hc) as HI.
  destruct (address <? i_len (g_index g)) eqn:E.
  - destruct HI as (k & c & b & Hk & Hin & Hb & H1 & H2 & ->).
    assert (HkB : c_end c <= length B).
    { destruct (chunks_lookup _ _ Hc _ _ Hk) as (_ & _ & _ & Hend). rewrite <- i_len_end in Hend.
      destruct (g_active g) as [a|]; simpl in Hact; lia. }
    destruct (Forall2_lookup_l _ _ _ _ _ Hm Hk) as (v & Hv & Hvok). rewrite Hv.
    exists (b - (address - c_start c)). split; [lia|]. unfold c_end in *. split; [lia|]. split.
    + apply gbounds_elem. exists c, b. split; [left; eapply elem_of_list_lookup_2; eauto|]. split; [exact Hb|lia].
    + set (off := address - c_start c) in *. set (len := b - off) in *.
      assert (Hvl : view_len v = c_size c).
      { destruct v as [o l|bs]; simpl in *; [lia|]. destruct Hvok as [_ ->]. apply sub_length. lia. }
      rewrite view_slice_ok by lia. destruct v as [o l|bs]; simpl view_sub.
      * destruct Hvok as (Hs & -> & ->). destruct (HF1 Hs) as [f Hsf].
        rewrite (read_file F B f) by (auto; lia). do 3 f_equal. lia.
      * destruct Hvok as (_ & ->). simpl. change (take len (drop off (sub B (c_start c) (c_size c)))) with (sub (sub B (c_start c) (c_size c)) off len).
        rewrite sub_sub by lia. do 3 f_equal. lia.
  - apply Nat.ltb_ge in E. destruct (g_active g) as [a|] eqn:Ea; simpl in Hact; [|lia].
    destruct Hact as (A1 & A2 & A3 & A4 & A5 & A6).
    destruct (c_find_in (a_bounds a) address A2) as (b & Hb & H1 & H2 & ->).
    { unfold c_end. lia. }
    set (off := address - c_start (a_bounds a)) in *. set (len := b - off) in *.
    assert (Hlen : active_size a = a_len a).
    { unfold active_size. destruct (a_map a); [lia|]. apply A6. }
    rewrite Hlen. destruct (a_len a <? off + len) eqn:G; [apply Nat.ltb_lt in G; lia|].
    exists len. split; [lia|]. split; [lia|]. split.
    + apply gbounds_elem. exists (a_bounds a), b. split; [right; eauto|]. split; [exact Hb|lia].
    + destruct (a_map a) as [o l|buf]; simpl view_sub.
      * destruct A6 as (-> & -> & f0 & Hsf0 & Hfl). destruct (HF1 ltac:(eauto)) as [f Hsf]. rewrite (read_file F B f) by (auto; lia). do 3 f_equal. lia.
      * destruct A6 as (_ & Hbl & Hbuf). simpl. do 2 f_equal.
        assert (Hs : sub buf off len = sub (drop (i_len (g_index g)) B) off len).
        { rewrite <- Hbuf, sub_take by lia. reflexivity. }
        unfold sub in Hs. rewrite Hs. rewrite drop_drop. unfold sub. do 2 f_equal. lia.
Qed.

Lemma get_ref_in g B address : gmm_ok g B -> address < length B ->
  exists n, 0 < n /\ address + n <= length B /\ address + n ∈ gbounds g /\
    get_ref g address = Ok (Some (sub B address n)).
Proof.
  intros Hok Ha. destruct (get_ref_in_file g B (g_file g) address Hok (fun x => x) (ok_file _ _ Hok) Ha) as (n & H1 & H2 & H3 & H4).
  exists n. split; [exact H1|]. split; [exact H2|]. split; [exact H3|]. destruct g. exact H4.
Qed.

Lemma get_ref_out g B address : gmm_ok g B -> length B <= address -> get_ref g address = Ok None.
Proof.
  intros [Hc Hm Hact Hf] Ha. unfold get_ref. destruct (address <? i_len (g_index g)) eqn:E.
  - apply Nat.ltb_lt in E. destruct (g_active g) as [a|]; simpl in Hact; lia.
  - destruct (g_active g) as [a|]; simpl in Hact; [|reflexivity].
    rewrite c_find_out; [reflexivity|]. right. unfold c_end. lia.
Qed.

(** ** growing *)
(** the state in which the new bytes are about to be written at [start] of the active mapping *)
Record prep (g : gmm) (B : list byte) (start ext : nat) (a : active) : Prop := Prep {
  pr_act : g_active g = Some a;
  pr_chunks : chunks_ok 0 (g_index g);
  pr_maps : Forall2 (view_ok (g_file g) B) (g_index g) (g_maps g);
  pr_start : c_start (a_bounds a) = i_len (g_index g);
  pr_bounds : bounds_ok (c_bounds (a_bounds a));
  pr_pos : i_len (g_index g) + start = length B;
  pr_size : c_size (a_bounds a) = start + ext;
  pr_len : start + ext <= a_len a;
  pr_map : match a_map a with
           | AFile off len => off = i_len (g_index g) /\ len = a_len a /\
               exists f, g_file g = Some f /\ i_len (g_index g) + a_len a <= length f
           | AAnon buf => g_file g = None /\ length buf = a_len a /\ take start buf = drop (i_len (g_index g)) B
           end;
  pr_file : forall f, g_file g = Some f -> length B <= length f /\ take (length B) f = B
}.

(** what happens to the file when the mapping grows *)
Definition file_grown (k : cfg) (F : option file) (n ext : nat) (F' : option file) : Prop :=
  F' = F \/ exists f, F = Some f /\ F' = Some (set_len f (n + Nat.max ext (min_mmap k))).

Lemma view_ok_file F F' B c v : (is_Some F -> is_Some F') -> (F = None -> F' = None) -> view_ok F B c v -> view_ok F' B c v.
Proof. intros H1 H2. destruct v as [o l|bs]; simpl; intros H; destruct H as [A C]; split; auto. Qed.

Lemma view_ok_app F B w c v : c_end c <= length B -> view_ok F B c v -> view_ok F (B ++ w) c v.
Proof.
  intros Hc. unfold c_end in Hc. destruct v as [o l|bs]; simpl; [auto|]. intros [H ->]. split; [exact H|].
  rewrite sub_app_l; [reflexivity|exact Hc].
Qed.

Lemma Forall2_view_app F B w idx maps : chunks_ok 0 idx -> i_len idx <= length B ->
  Forall2 (view_ok F B) idx maps -> Forall2 (view_ok F (B ++ w)) idx maps.
Proof.
  intros Hc Hl H. apply Forall2_same_length_lookup_2; [eapply Forall2_length; eauto|].
  intros i c v Hi Hv. apply view_ok_app.
  - destruct (chunks_lookup _ _ Hc _ _ Hi) as (_ & _ & _ & He). rewrite <- i_len_end in He. lia.
  - eapply Forall2_lookup_lr; eauto.
Qed.

Definition no_late_faults (fl : faults) : Prop := f_protect fl = false /\ f_flush fl = false /\ f_remap fl = false.

Lemma create_file fl F size offset F' r : create_mmap fl F size offset = (F', r) ->
  (F' = F \/ exists f, F = Some f /\ F' = Some (set_len f (offset + size))) /\
  (r = Err IoError \/
   r = Ok (match F with Some _ => AFile offset size | None => AAnon (replicate size 0%N) end) /\
   F' = match F with Some f => Some (set_len f (offset + size)) | None => None end).
Proof.
  unfold create_mmap. destruct F as [f|].
  - destruct (f_extend fl); [intro E; injection E as <- <-; auto|].
    destruct (f_map fl); intro E; injection E as <- <-; eauto 10.
  - destruct (f_map fl); intro E; injection E as <- <-; auto.
Qed.

Lemma new_size_grown k g ext n F' :
  (F' = g_file g \/ exists f, g_file g = Some f /\ F' = Some (set_len f (n + new_mmap_size k g ext))) ->
  file_grown k (g_file g) n ext F'.
Proof.
  intros [->|(f & E & ->)]; [left; reflexivity|]. right. exists f. split; [exact E|].
  unfold new_mmap_size. rewrite E. reflexivity.
Qed.

Lemma grown_keeps k F n ext F' B : file_grown k F n ext F' -> length B <= n ->
  (forall f, F = Some f -> length B <= length f /\ take (length B) f = B) ->
  (forall f, F' = Some f -> length B <= length f /\ take (length B) f = B).
Proof.
  intros [->|(f0 & -> & ->)] Hn H f E; [auto|]. injection E as <-. destruct (H f0 eq_refl) as [H1 H2].
  rewrite set_len_length. split; [lia|]. rewrite set_len_take by lia. exact H2.
Qed.

Lemma prep_err_ok k g B F' ext : gmm_ok g B -> file_grown k (g_file g) (length B) ext F' ->
  (forall a, g_active g = Some a -> a_len a <= c_size (a_bounds a) + ext) ->
  gmm_ok (Gmm F' (g_index g) (g_maps g) (g_active g)) B.
Proof.
  intros [Hc Hm Ha Hf] Hg Hlong. split; simpl.
  - exact Hc.
  - eapply Forall2_impl; [exact Hm|]. intros c v. apply view_ok_file.
    + intros [f E]. destruct Hg as [->|(f' & _ & ->)]; eauto.
    + intro E. destruct Hg as [->|(f' & E' & _)]; congruence.
  - destruct (g_active g) as [a|]; simpl in *; [|exact Ha].
    destruct Ha as (A1 & A2 & A3 & A4 & A5 & A6). do 5 (split; [assumption|]).
    destruct (a_map a) as [o l|buf].
    + destruct A6 as (-> & -> & f & E & Hl). split; [reflexivity|]. split; [reflexivity|].
      destruct Hg as [->|(f' & E' & ->)]; [eauto|]. eexists. split; [reflexivity|]. rewrite set_len_length.
      specialize (Hlong a eq_refl). lia.
    + destruct A6 as (E & A7 & A8). split; [|auto]. destruct Hg as [->|(f' & E' & _)]; congruence.
  - eapply grown_keeps; eauto.
Qed.

Lemma grow_prepare_ok k fl g B ext g1 r : gmm_ok g B -> 0 < ext -> f_protect fl = false ->
  grow_prepare k fl g ext = (g1, r) ->
  file_grown k (g_file g) (length B) ext (g_file g1) /\
  ((r = Err IoError /\ gmm_ok g1 B /\ gbounds g1 = gbounds g) \/
   (exists start a, r = Ok start /\ prep g1 B start ext a /\
     (forall x, x ∈ gbounds g1 -> x ∈ gbounds g \/ x = length B + ext))) /\
  (fl = no_faults -> exists start, r = Ok start).
Proof.
  intros Hok Hext Hprot E. assert (Hok' := Hok). destruct Hok' as [Hc Hm Hact Hf]. unfold grow_prepare in E.
  destruct (g_active g) as [a|] eqn:Ea; simpl in Hact.
  - destruct Hact as (A1 & A2 & A3 & A4 & A5 & A6).
    destruct (c_size (a_bounds a) + ext <? a_len a) eqn:Efit.
    + apply Nat.ltb_lt in Efit.
      destruct (c_append_ok (a_bounds a) (c_size (a_bounds a) + ext) A2) as [Eap Hb]; [lia|]. rewrite Eap in E.
      injection E as <- <-. split; [left; reflexivity|]. split; [|eauto]. right.
      exists (c_size (a_bounds a)), (Active (a_len a) (a_map a) (Chunk (c_start (a_bounds a)) (c_bounds (a_bounds a) ++ [c_size (a_bounds a) + ext]))).
      split; [reflexivity|]. split.
      * split; cbn [g_active g_index g_maps g_file a_bounds a_len a_map c_start c_bounds]; try assumption; try reflexivity.
        -- apply c_size_snoc.
        -- lia.
      * intros x Hx. apply gbounds_elem in Hx as (c & b & Hcc & Hbb & ->). simpl in Hcc.
        destruct Hcc as [Hcc|(a' & Ha' & ->)].
        -- left. apply gbounds_elem. eauto 10.
        -- injection Ha' as <-. simpl in *. apply elem_of_app in Hbb as [Hbb|Hbb].
           ++ left. apply gbounds_elem. exists (a_bounds a), b. split; [right; eauto|auto].
           ++ apply elem_of_list_singleton in Hbb as ->. right. lia.
    + apply Nat.ltb_ge in Efit.
      assert (Hend : c_end (a_bounds a) = length B) by (unfold c_end; lia). rewrite Hend in E.
      destruct (create_mmap fl (g_file g) (new_mmap_size k g ext) (length B)) as [F' rc] eqn:Ecr.
      destruct (create_file _ _ _ _ _ _ Ecr) as [HF Hrc]. assert (Hg := new_size_grown k g ext (length B) F' HF).
      destruct (c_append_ok (Chunk (length B) []) ext) as [Eap Hb]; [exact bounds_ok_nil|exact Hext|].
      destruct Hrc as [->|[-> HF']].
      * injection E as <- <-. split; [exact Hg|]. split.
        -- left. split; [reflexivity|]. split; [|unfold gbounds; simpl; rewrite Ea; reflexivity].
           rewrite <- Ea. eapply prep_err_ok; eauto. rewrite Ea. intros a' G; injection G as <-. exact Efit.
        -- intros ->. unfold create_mmap in Ecr. simpl in Ecr. destruct (g_file g); injection Ecr; discriminate.
      * rewrite Eap in E. cbn [c_start c_bounds] in E. unfold i_append in E.
        destruct (c_size (a_bounds a) =? 0) eqn:E0; [apply Nat.eqb_eq in E0; lia|].
        rewrite A1, Nat.eqb_refl, Hprot in E. injection E as <- <-. split; [exact Hg|]. split; [|eauto]. right.
        destruct (chunks_ok_app 0 (g_index g) (a_bounds a) Hc) as [Hc' He']; [rewrite <- i_len_end; exact A1|exact A2|exact A3|].
        assert (Hil : i_len (g_index g ++ [a_bounds a]) = length B) by (rewrite i_len_end, He'; exact Hend).
        eexists 0, _. split; [reflexivity|]. split.
        -- split; cbn [g_active g_index g_maps g_file a_bounds a_len a_map c_start c_bounds app].
           ++ reflexivity.
           ++ exact Hc'.
           ++ apply Forall2_app.
              ** eapply Forall2_impl; [exact Hm|]. intros c v. apply view_ok_file.
                 --- intros [f G]. rewrite G in HF'. eauto.
                 --- intro G. rewrite G in HF'. exact HF'.
              ** constructor; [|constructor].
                 destruct (a_map a) as [o l|buf].
                 --- destruct A6 as (-> & -> & f & Ef & Hl). rewrite Ef in HF'.
                     rewrite (view_slice_ok _ 0 (c_size (a_bounds a))) by (simpl; lia).
                     simpl. rewrite HF'. split; [eauto|]. split; [lia|reflexivity].
                 --- destruct A6 as (Ef & Hbl & Hbuf). rewrite Ef in HF'.
                     rewrite (view_slice_ok _ 0 (c_size (a_bounds a))) by (simpl; lia).
                     simpl. split; [exact HF'|]. unfold sub. rewrite drop_0, Hbuf, A1.
                     rewrite take_ge; [reflexivity|]. rewrite drop_length. lia.
           ++ rewrite Hil. reflexivity.
           ++ exact Hb.
           ++ rewrite Hil. lia.
           ++ unfold c_size. reflexivity.
           ++ unfold new_mmap_size. destruct (g_file g); simpl; lia.
           ++ rewrite Hil. cbn [a_map a_len]. unfold new_mmap_size in *. destruct (g_file g) as [f|]; rewrite HF'.
              ** split; [reflexivity|]. split; [reflexivity|]. eexists. split; [reflexivity|]. rewrite set_len_length. lia.
              ** split; [reflexivity|]. split; [apply replicate_length|]. rewrite take_0, drop_all. reflexivity.
           ++ eapply grown_keeps; eauto.
        -- intros x Hx. apply gbounds_elem in Hx as (c & b & Hcc & Hbb & ->). simpl in Hcc.
           destruct Hcc as [Hcc|(a' & Ha' & ->)].
           ++ left. apply gbounds_elem. exists c, b. split; [|auto]. apply elem_of_app in Hcc as [Hcc|Hcc]; [auto|].
              apply elem_of_list_singleton in Hcc as ->. right. eauto.
           ++ injection Ha' as <-. simpl in *. apply elem_of_list_singleton in Hbb as ->. right. reflexivity.
  - assert (Hend : i_len (g_index g) = length B) by lia. rewrite Hend in E.
    destruct (create_mmap fl (g_file g) (new_mmap_size k g ext) (length B)) as [F' rc] eqn:Ecr.
    destruct (create_file _ _ _ _ _ _ Ecr) as [HF Hrc]. assert (Hg := new_size_grown k g ext (length B) F' HF).
    destruct (c_append_ok (Chunk (length B) []) ext) as [Eap Hb]; [exact bounds_ok_nil|exact Hext|].
    destruct Hrc as [->|[-> HF']].
    + injection E as <- <-. split; [exact Hg|]. split.
      * left. split; [reflexivity|]. split; [|unfold gbounds; simpl; rewrite Ea; reflexivity].
        rewrite <- Ea. eapply prep_err_ok; eauto. rewrite Ea. discriminate.
      * intros ->. unfold create_mmap in Ecr. simpl in Ecr. destruct (g_file g); injection Ecr; discriminate.
    + rewrite Eap in E. cbn [c_start c_bounds app] in E. injection E as <- <-. split; [exact Hg|]. split; [|eauto]. right.
      eexists 0, _. split; [reflexivity|]. split.
      * split; cbn [g_active g_index g_maps g_file a_bounds a_len a_map c_start c_bounds app].
        ++ reflexivity.
        ++ exact Hc.
        ++ eapply Forall2_impl; [exact Hm|]. intros c v. apply view_ok_file.
           --- intros [f G]. rewrite G in HF'. eauto.
           --- intro G. rewrite G in HF'. exact HF'.
        ++ simpl. lia.
        ++ exact Hb.
        ++ lia.
        ++ unfold c_size. reflexivity.
        ++ unfold new_mmap_size. destruct (g_file g); simpl; lia.
        ++ rewrite Hend. cbn [a_map a_len]. unfold new_mmap_size in *. destruct (g_file g) as [f|]; rewrite HF'.
           ** split; [reflexivity|]. split; [reflexivity|]. eexists. split; [reflexivity|]. rewrite set_len_length. lia.
           ** split; [reflexivity|]. split; [apply replicate_length|]. rewrite take_0, drop_all. reflexivity.
        ++ eapply grown_keeps; eauto.
      * intros x Hx. apply gbounds_elem in Hx as (c & b & Hcc & Hbb & ->). simpl in Hcc.
        destruct Hcc as [Hcc|(a' & Ha' & ->)].
        -- left. apply gbounds_elem. eauto 10.
        -- injection Ha' as <-. simpl in *. apply elem_of_list_singleton in Hbb as ->. right. reflexivity.
Qed.

(** the write itself, of all the bytes *)
Lemma active_write_ok g B start ext a w : prep g B start ext a -> 0 < ext -> length w <= ext ->
  exists F' a', active_write (g_file g) a start w = Some (F', a') /\
    F' = match g_file g with Some f => Some (write_at f (length B) w) | None => None end /\
    a_bounds a' = a_bounds a /\
    (length w = ext -> gmm_ok (Gmm F' (g_index g) (g_maps g) (Some a')) (B ++ w)).
Proof.
  intros [P1 P2 P3 P4 P5 P6 P7 P8 P9 P10] Hext Hw. unfold active_write. destruct (a_map a) as [off len|buf] eqn:Em.
  - destruct P9 as (-> & -> & f & Ef & Hl). rewrite Ef.
    destruct (i_len (g_index g) + start + length w <=? length f) eqn:El; [|apply Nat.leb_gt in El; lia].
    rewrite P6. do 2 eexists. split; [reflexivity|]. split; [reflexivity|]. split; [reflexivity|]. intro Hwe.
    destruct (P10 f Ef) as [P11 P12].
    split; cbn [g_index g_maps g_file g_active].
    + exact P2.
    + apply Forall2_view_app; [exact P2|lia|]. eapply Forall2_impl; [exact P3|]. intros c v. apply view_ok_file; [eauto|congruence].
    + unfold active_ok. split; [exact P4|]. split; [exact P5|]. split; [lia|]. rewrite app_length. split; [lia|]. split; [lia|].
      rewrite Em. split; [reflexivity|]. split; [reflexivity|]. eexists. split; [reflexivity|]. rewrite write_at_length by lia. exact Hl.
    + intros f' G. injection G as <-. rewrite app_length, write_at_length by lia. split; [lia|].
      rewrite write_at_take by lia. rewrite P12. reflexivity.
  - destruct P9 as (Ef & Hbl & Hbuf). rewrite Ef. do 2 eexists. split; [reflexivity|]. split; [reflexivity|]. split; [reflexivity|].
    intro Hwe. split; cbn [g_index g_maps g_file g_active].
    + exact P2.
    + apply Forall2_view_app; [exact P2|lia|]. rewrite Ef in P3. exact P3.
    + unfold active_ok. cbn [a_bounds a_len a_map]. split; [exact P4|]. split; [exact P5|]. split; [lia|]. rewrite app_length. split; [lia|]. split; [lia|].
      split; [reflexivity|]. split; [rewrite write_at_length; lia|]. rewrite P7, <- Hwe, write_at_take by lia. rewrite Hbuf.
      rewrite drop_app_le by lia. reflexivity.
    + discriminate.
Qed.

Lemma rearrange_ok k fl g B g' r : gmm_ok g B -> rearrange k fl g = (g', r) ->
  gmm_ok g' B /\ g_file g' = g_file g /\ (forall x, x ∈ gbounds g' -> x ∈ gbounds g) /\
  (f_remap fl = false -> r = Ok tt).
Proof.
  intros Hok. unfold rearrange. destruct (length (g_maps g) <=? max_mmaps k) eqn:El.
  { intro E; injection E as <- <-. auto. }
  destruct (g_file g) as [f|] eqn:Ef; [|intro E; injection E as <- <-; auto].
  destruct (f_remap fl); [intro E; injection E as <- <-; rewrite Ef; split; [exact Hok|]; split; [reflexivity|]; split; [auto|discriminate]|].
  assert (Hok' := Hok). destruct Hok' as [Hc Hm Ha Hf].
  apply Nat.leb_gt in El.
  assert (Hlast : exists c, last (g_index g) = Some c /\ c ∈ g_index g).
  { destruct (last (g_index g)) as [c|] eqn:E.
    - exists c. split; [reflexivity|]. apply last_Some_elem_of. exact E.
    - apply last_None in E. apply Forall2_length in Hm. rewrite E in Hm. simpl in Hm. lia. }
  destruct Hlast as (c & Hlc & Hcin). apply elem_of_list_lookup in Hcin as (n & Hn).
  destruct (chunks_lookup _ _ Hc _ _ Hn) as (Cb & _ & Cz & _).
  assert (Hil : i_len (g_index g) = c_start c + c_size c) by (unfold i_len; rewrite Hlc; reflexivity).
  destruct (c_append_ok (Chunk 0 []) (i_len (g_index g))) as [Eap Hb];
    [exact bounds_ok_nil|simpl; rewrite Hil; unfold c_size at 1; simpl; lia|].
  rewrite Eap. unfold i_append. cbn [c_start c_bounds app]. change (c_size {| c_start := 0; c_bounds := [i_len (g_index g)] |}) with (i_len (g_index g)).
  destruct (i_len (g_index g) =? 0) eqn:E0; [apply Nat.eqb_eq in E0; lia|]. simpl i_len at 1. simpl (0 =? 0). cbn iota.
  intro E; injection E as <- <-.
  assert (Hil' : i_len [{| c_start := 0; c_bounds := [i_len (g_index g)] |}] = i_len (g_index g)) by reflexivity.
  split; [split|split; [|split]]; cbn [g_index g_maps g_file g_active].
  - simpl. split; [reflexivity|]. split; [exact Hb|]. split; [|exact I]. change (0 < i_len (g_index g)). lia.
  - constructor; [|constructor]. simpl. split; [eauto|]. split; reflexivity.
  - rewrite Hil', <- Ef. exact Ha.
  - rewrite <- Ef. exact Hf.
  - reflexivity.
  - intros x Hx. apply gbounds_elem in Hx as (d & b & Hd & Hbb & ->). simpl in Hd. destruct Hd as [Hd|Hd].
    + apply elem_of_list_singleton in Hd as ->. simpl in *. apply elem_of_list_singleton in Hbb as ->.
      apply gbounds_elem. exists c, (c_size c). split; [left; eapply elem_of_list_lookup_2; eauto|]. split; [|exact Hil].
      unfold c_size in *. destruct (last (c_bounds c)) as [z|] eqn:Ez; [|simpl in Cz; lia]. simpl. apply last_Some_elem_of. exact Ez.
    + apply gbounds_elem. exists d, b. auto.
  - auto.
Qed.

(** grow_and_apply appends [w] when nothing fails late; an early failure leaves the bytes as they were *)
Lemma grow_ok k fl g B w f g' r : gmm_ok g B -> w <> [] -> no_late_faults fl ->
  (forall n, length w <= n -> f n = (w, None)) ->
  grow_and_apply k fl g (length w) f = (g', r) ->
  (r = Ok tt /\ gmm_ok g' (B ++ w) /\ (forall x, x ∈ gbounds g' -> x ∈ gbounds g \/ x = length (B ++ w)) /\
    match g_file g with
    | None => g_file g' = None
    | Some f0 => exists f1, (f1 = f0 \/ f1 = set_len f0 (length B + Nat.max (length w) (min_mmap k))) /\
                   length B + length w <= length f1 /\ g_file g' = Some (write_at f1 (length B) w)
    end) \/
  (r = Err IoError /\ gmm_ok g' B /\ gbounds g' = gbounds g /\
    file_grown k (g_file g) (length B) (length w) (g_file g') /\ fl <> no_faults).
Proof.
  intros Hok Hw (Hp & Hfl & Hr) Hf. assert (Hpos : 0 < length w) by (destruct w; simpl; [congruence|lia]).
  unfold grow_and_apply. destruct (length w =? 0) eqn:E0; [apply Nat.eqb_eq in E0; lia|].
  destruct (grow_prepare k fl g (length w)) as [g1 r1] eqn:Ep.
  destruct (grow_prepare_ok k fl g B (length w) g1 r1 Hok Hpos Hp Ep) as (Hg & Hcase & Hno).
  destruct Hcase as [(-> & Hok1 & Hgb)|(start & a & -> & HP & Hgb)].
  - intro E; injection E as <- <-. right. split; [reflexivity|]. split; [exact Hok1|]. split; [exact Hgb|]. split; [exact Hg|].
    intros ->. destruct (Hno eq_refl) as [s G]. discriminate.
  - assert (HP' := HP). destruct HP' as [P1 P2 P3 P4 P5 P6 P7 P8 P9 P10]. rewrite P1.
    assert (Hsz : active_size a = a_len a).
    { unfold active_size. destruct (a_map a); [|apply P9]. destruct P9 as (_ & -> & _). reflexivity. }
    rewrite Hsz. destruct (a_len a <? start) eqn:E1; [apply Nat.ltb_lt in E1; lia|].
    rewrite Hf by lia. destruct (active_write_ok g1 B start (length w) a w HP Hpos (le_n _)) as (F' & a' & Eaw & HF' & Hab & Hok2).
    rewrite Eaw, Hfl. specialize (Hok2 eq_refl). intro E.
    destruct (rearrange_ok _ _ _ _ _ _ Hok2 E) as (Hok3 & Hfile & Hb3 & Hres). left.
    split; [apply Hres; exact Hr|]. split; [exact Hok3|]. split.
    + intros x Hx. apply Hb3 in Hx. rewrite app_length. apply Hgb.
      apply gbounds_elem in Hx as (c & b & Hcc & Hbb & ->). simpl in Hcc. apply gbounds_elem. exists c, b. split; [|auto].
      destruct Hcc as [Hcc|(a2 & Ha2 & ->)]; [auto|]. injection Ha2 as <-. right. eauto.
    + simpl in Hfile. rewrite Hfile, HF'. destruct Hg as [Hg|(f0 & Hg0 & Hg)].
      * rewrite Hg in *. destruct (g_file g) as [f0|] eqn:Ef; [|reflexivity]. exists f0. split; [auto|]. split; [|reflexivity].
        destruct (a_map a); [|destruct P9; congruence]. destruct P9 as (_ & _ & f2 & E2 & Hl2). injection E2 as <-. lia.
      * rewrite Hg0, Hg. eexists. split; [right; reflexivity|]. split; [|reflexivity]. rewrite set_len_length. lia.
Qed.

Lemma gmm_new_ok f e : e <= length f -> exists g, gmm_new (Some f) (Some e) = Ok g /\ gmm_ok g (take e f) /\
  g_file g = Some f /\ (forall x, x ∈ gbounds g -> x = e).
Proof.
  intro He. unfold gmm_new. destruct (length f <? e) eqn:E; [apply Nat.ltb_lt in E; lia|]. simpl default.
  destruct (e =? 0) eqn:E0.
  - apply Nat.eqb_eq in E0. subst e. eexists. split; [reflexivity|]. split; [|split; [reflexivity|intros x Hx; inversion Hx]].
    split; simpl; [exact I|constructor|reflexivity|]. intros f' G. injection G as <-. split; [lia|reflexivity].
  - apply Nat.eqb_neq in E0. destruct (c_append_ok (Chunk 0 []) e) as [Eap Hb];
      [exact bounds_ok_nil|unfold c_size; simpl; lia|].
    rewrite Eap. unfold i_append. cbn [c_start c_bounds app]. change (c_size {| c_start := 0; c_bounds := [e] |}) with e.
    destruct (e =? 0) eqn:E1; [apply Nat.eqb_eq in E1; lia|]. simpl i_len at 1. simpl (0 =? 0). cbn iota.
    eexists. split; [reflexivity|]. split; [|split; [reflexivity|]].
    + split; cbn [g_index g_maps g_file g_active].
      * simpl. split; [reflexivity|]. split; [exact Hb|]. split; [|exact I]. change (0 < e). lia.
      * constructor; [|constructor]. simpl. split; [eauto|]. split; reflexivity.
      * simpl. rewrite take_length. change (Nat.min e (length f) = e). lia.
      * intros f' G. injection G as <-. rewrite take_length. split; [lia|]. f_equal. lia.
    + intros x Hx. unfold gbounds in Hx. simpl in Hx. apply elem_of_list_singleton in Hx. exact Hx.
Qed.

Lemma gmm_new_none_ok f : gmm_new (Some f) None = gmm_new (Some f) (Some (length f)).
Proof. unfold gmm_new. simpl. rewrite Nat.ltb_irrefl. reflexivity. Qed.

Lemma gmm_new_mem e : exists g, gmm_new None e = Ok g /\ gmm_ok g [] /\ g_file g = None /\ gbounds g = [].
Proof.
  eexists. split; [reflexivity|]. split; [|split; reflexivity]. split; simpl; auto. discriminate.
Qed.

Lemma shrink_file g B : gmm_ok g B -> g_file (shrink g) = match g_file g with Some _ => Some B | None => None end.
Proof.
  intro Hok. unfold shrink. destruct (g_file g) as [f|] eqn:E; [|exact E]. simpl. f_equal.
  rewrite (gmm_len_ok g B Hok). destruct (ok_file _ _ Hok f E) as [H1 H2].
  unfold set_len. rewrite resize_le by exact H1. exact H2.
Qed.

Lemma get_ref_det g B F address : gmm_ok g B -> (is_Some (g_file g) -> is_Some F) -> holds F B ->
  get_ref (Gmm F (g_index g) (g_maps g) (g_active g)) address = get_ref g address.
Proof.
  intros Hok H1 H2. destruct (decide (address < length B)) as [Ha|Ha].
  - assert (Hv : forall v bs bs', view_read (g_file g) v = Some bs -> view_read F v = Some bs' -> length bs = length bs').
    { intros [o l|b] bs bs'; simpl; [|congruence]. destruct (g_file g) as [f|]; [|discriminate]. destruct F as [f'|]; [|discriminate].
      destruct (o + l <=? length f) eqn:E1; [|discriminate]. destruct (o + l <=? length f') eqn:E2; [|discriminate].
      apply Nat.leb_le in E1, E2. intros G1 G2. injection G1 as <-. injection G2 as <-. rewrite !take_length, !drop_length. lia. }
    destruct (get_ref_in_file g B F address Hok H1 H2 Ha) as (n & _ & L1 & _ & E1).
    destruct (get_ref_in g B address Hok Ha) as (m & _ & L2 & _ & E2).
    enough (n = m) by (subst; congruence).
    assert (length (sub B address n) = length (sub B address m)) as E; [|rewrite !sub_length in E by lia; exact E].
    unfold get_ref in E1, E2. cbn [g_file g_index g_maps g_active] in *.
    destruct (address <? i_len (g_index g)).
    + destruct (i_find (g_index g) address) as [[[[a b] c]|]| |]; try discriminate. destruct (g_maps g !! a) as [v|]; try discriminate.
      destruct (view_read F _) eqn:V1; try discriminate. destruct (view_read (g_file g) _) eqn:V2; try discriminate.
      injection E1 as <-. injection E2 as <-. symmetry. eauto.
    + destruct (g_active g) as [a|]; try discriminate. destruct (c_find (a_bounds a) address) as [[[off len]|]| |]; try discriminate.
      destruct (active_size a <? off + len); try discriminate.
      destruct (view_read F _) eqn:V1; try discriminate. destruct (view_read (g_file g) _) eqn:V2; try discriminate.
      injection E1 as <-. injection E2 as <-. symmetry. eauto.
  - rewrite (get_ref_out g B address Hok) by lia. destruct Hok as [Hc Hm Hact Hf]. unfold get_ref. cbn [g_file g_index g_maps g_active].
    destruct (address <? i_len (g_index g)) eqn:E.
    + apply Nat.ltb_lt in E. destruct (g_active g) as [a|]; simpl in Hact; lia.
    + destruct (g_active g) as [a|]; simpl in Hact; [|reflexivity].
      rewrite c_find_out; [reflexivity|]. right. unfold c_end. lia.
Qed.

Lemma get_ref_shrink g B address : gmm_ok g B -> get_ref (shrink g) address = get_ref g address.
Proof.
  intro H. assert (Hs := shrink_file g B H). unfold shrink in *. destruct (g_file g) as [f|] eqn:Ef; [|reflexivity].
  apply (get_ref_det g B); auto. simpl in Hs. intros f' E. injection E as <-. injection Hs as ->.
  rewrite firstn_all. auto.
Qed.
