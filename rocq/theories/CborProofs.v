(** Proofs about sizes and injectivity of the ledger's encodings. *)
From Coq Require Import ZArith NArith Ascii String Lia.
From stdpp Require Import prelude numbers strings list.
From Verif Require Import ValueModel EstimModel JsonModel JsonProofs MultisigModel CborSpec.
Open Scope N_scope.

(** ** Sizes *)
Lemma size_app a b : size (a ++ b) = size a + size b.
Proof. unfold size. rewrite app_length. lia. Qed.
Lemma size_cons c b : size (c :: b) = 1 + size b.
Proof. unfold size. cbn [length]. lia. Qed.
Lemma be_length k n : length (big_endian k n) = k.
Proof. induction k; cbn; congruence. Qed.
Lemma size_be k n : size (big_endian k n) = N.of_nat k.
Proof. unfold size. rewrite be_length. reflexivity. Qed.
Lemma head_size m n : size (head_of m n) = if n <? 24 then 1 else if n <? 2 ^ 8 then 2 else if n <? 2 ^ 16 then 3 else if n <? 2 ^ 32 then 5 else 9.
Proof. unfold head_of. repeat destruct (_ <? _); rewrite ?size_cons, ?size_be; reflexivity. Qed.
Ltac heads := rewrite ?head_size; repeat match goal with |- context [if ?x <? ?y then _ else _] => destruct (N.ltb_spec x y) end; try lia.
Lemma head_pos m n : 1 <= size (head_of m n). Proof. heads. Qed.
Lemma head_9 m n : size (head_of m n) <= 9. Proof. heads. Qed.
Lemma head_1 m n : n < 24 -> size (head_of m n) = 1. Proof. intro. heads. Qed.
Lemma head_2 m n : n < 2 ^ 8 -> size (head_of m n) <= 2. Proof. intro. heads. Qed.
Lemma head_3 m n : n < 2 ^ 16 -> size (head_of m n) <= 3. Proof. intro. heads. Qed.
Lemma head_mono m a b : a <= b -> size (head_of m a) <= size (head_of m b). Proof. intro. heads. Qed.
Lemma text_size s : size (text_of s) = N.of_nat (String.length s).
Proof.
  unfold size. f_equal. induction s as [|c s IH]; [reflexivity|].
  change (text_of (String c s)) with (c :: text_of s). cbn [length String.length]. rewrite IH. reflexivity.
Qed.
Lemma bstr_size s : size (bstr s) = size (head_of 2 (N.of_nat (String.length s))) + N.of_nat (String.length s).
Proof. unfold bstr. rewrite size_app, text_size. reflexivity. Qed.
Lemma tstr_size s : size (tstr s) = size (head_of 3 (N.of_nat (String.length s))) + N.of_nat (String.length s).
Proof. unfold tstr. rewrite size_app, text_size. reflexivity. Qed.
Definition total (l : list bytes) : N := fold_right (fun b n => size b + n) 0 l.
Lemma size_concat l : size (concat l) = total l.
Proof. induction l as [|b l IH]; [reflexivity|]. cbn. rewrite size_app, IH. reflexivity. Qed.
Lemma arr_size l : size (arr l) = size (head_of 4 (N.of_nat (length l))) + total l.
Proof. unfold arr. rewrite size_app, size_concat. reflexivity. Qed.
Lemma dict_size l : size (dict l) = size (head_of 5 (N.of_nat (length l))) + total (map (fun kv => fst kv ++ snd kv) l).
Proof. unfold dict. rewrite size_app, size_concat. reflexivity. Qed.
Lemma total_bound {A} (f : A -> bytes) (P : A -> Prop) k l : (forall a, P a -> size (f a) <= k) -> Forall P l -> total (map f l) <= k * N.of_nat (length l).
Proof.
  intros H F. induction F as [|a l Ha F IH]; cbn [map total fold_right length]; [lia|]. fold (total (map f l)). specialize (H a Ha). lia.
Qed.
Lemma total_app a b : total (a ++ b) = total a + total b.
Proof. induction a as [|x a IH]; [reflexivity|]. cbn [app total fold_right]. fold (total (a ++ b)). fold (total a). lia. Qed.
Lemma bstr_32 s : long 32 s -> size (bstr s) = 34. Proof. unfold long. intro E. rewrite bstr_size, E. reflexivity. Qed.
Lemma bstr_28 s : long 28 s -> size (bstr s) = 30. Proof. unfold long. intro E. rewrite bstr_size, E. reflexivity. Qed.
Lemma bstr_64 s : long 64 s -> size (bstr s) = 66. Proof. unfold long. intro E. rewrite bstr_size, E. reflexivity. Qed.
Lemma uint_9 n : size (uint n) <= 9. Proof. apply head_9. Qed.
Lemma uint_small n : n < 24 -> size (uint n) = 1. Proof. apply head_1. Qed.

(** one element of each kind *)
Lemma in_size i : wf_in i -> size (in_bytes i) <= 38.
Proof.
  intros [H I]. unfold in_bytes. rewrite arr_size. cbn [length total fold_right].
  rewrite (bstr_32 _ H), head_1 by lia. pose proof (head_3 0 _ I). unfold uint. lia.
Qed.
Lemma sig_size s : wf_sig s -> size (arr [bstr (fst s); bstr (snd s)]) = 101.
Proof. intros [A B]. rewrite arr_size. cbn [length total fold_right]. rewrite (bstr_32 _ A), (bstr_64 _ B), head_1 by lia. reflexivity. Qed.
Lemma short_bstr s n : (String.length s <= n)%nat -> (n < 256)%nat -> size (bstr s) <= 2 + N.of_nat n.
Proof. intros H L. rewrite bstr_size. pose proof (head_2 2 (N.of_nat (String.length s)) ltac:(lia)). lia. Qed.
Lemma out_size_pure o : to_assets o = [] -> size (out_bytes o) = 1 + size (bstr (to_address o)) + size (uint (to_coin o)).
Proof. intro E. unfold out_bytes. rewrite E, arr_size. cbn [length total fold_right]. rewrite head_1 by lia. lia. Qed.
Lemma out_size_assets o l : to_assets o = l -> l <> [] ->
  size (out_bytes o) = 1 + size (bstr (to_address o)) + (1 + size (uint (to_coin o)) + size (assets_bytes l)).
Proof.
  intros E NE. unfold out_bytes. rewrite E. destruct l as [|x l]; [congruence|]. rewrite arr_size. cbn [length total fold_right].
  rewrite arr_size. cbn [length total fold_right]. rewrite !head_1 by lia. lia.
Qed.
Lemma out_size o : simple_out o -> size (out_bytes o) <= 145.
Proof.
  intros [A [E|(p & n & q & E & P & L)]]; pose proof (short_bstr _ 57 A ltac:(lia)); pose proof (uint_9 (to_coin o)).
  - rewrite (out_size_pure o E). lia.
  - rewrite (out_size_assets o _ E) by discriminate. unfold assets_bytes. rewrite dict_size. cbn [map length total fold_right fst snd].
    rewrite size_app, dict_size. cbn [map length total fold_right fst snd]. rewrite size_app.
    rewrite (bstr_28 _ P), !head_1 by lia. pose proof (short_bstr _ 32 L ltac:(lia)). pose proof (uint_9 q). lia.
Qed.

(** the whole transaction *)
Lemma scripts_only_size l : size (scripts_only l) = 2 + size (arr (map script_bytes l)).
Proof.
  unfold scripts_only. rewrite dict_size. cbn [map length total fold_right fst snd]. rewrite size_app, head_1, uint_small by lia. lia.
Qed.
Lemma witness_size t q : Forall wf_sig (tx_signatures t) -> tx_scripts t <> [] -> N.of_nat (length (tx_signatures t)) <= q -> q < 2 ^ 16 ->
  size (witness_bytes t) + 7 * N.of_nat (length (tx_signatures t)) <= size (scripts_only (tx_scripts t)) + 108 * N.of_nat (length (tx_signatures t)) +
    (if N.of_nat (length (tx_signatures t)) =? 0 then 0 else 4).
Proof.
  intros F NE L Q. rewrite scripts_only_size. unfold witness_bytes.
  destruct (tx_scripts t) as [|s l] eqn:Es; [congruence|].
  destruct (tx_signatures t) as [|x r] eqn:Er.
  - rewrite dict_size. cbn [app map length total fold_right fst snd]. rewrite size_app, head_1, uint_small by lia.
    change (N.of_nat 0 =? 0) with true. cbn iota. lia.
  - assert (x :: r <> []) as NE' by discriminate. revert F L NE'. generalize (x :: r) as sg. clear Er x r. intros sg F L NE'.
    set (g := fun ks : string * string => arr [bstr (fst ks); bstr (snd ks)]).
    fold g.
    rewrite dict_size. cbn [app length]. rewrite (head_1 5) by lia. change (N.of_nat 2) with 2.
    pose proof (total_bound g wf_sig 101 sg ltac:(intros a Ha; pose proof (sig_size a Ha) as Z; subst g; cbn beta; rewrite Z; lia) F).
    pose proof (head_3 4 (N.of_nat (length sg)) ltac:(lia)).
    destruct (N.eqb_spec (N.of_nat (length sg)) 0) as [Z|_]; [destruct sg; [congruence|cbn in Z; lia]|].
    generalize dependent (map script_bytes (s :: l)). intro sb.
    change (map (fun kv : bytes * bytes => kv.1 ++ kv.2) [(uint 0, arr (map g sg)); (uint 1, arr sb)]) with [uint 0 ++ arr (map g sg); uint 1 ++ arr sb].
    cbn [total fold_right]. rewrite !size_app, !uint_small, (arr_size (map g sg)), map_length by lia. lia.
Qed.
Definition magic_cost (t : tx) : N := match tx_magic t with Some m => N.of_nat (String.length (snd m)) + 5 | None => 0 end.
Lemma metadata_size t : (forall m, tx_magic t = Some m -> (String.length (snd m) <= 64)%nat) ->
  size (metadata_bytes t) <= match tx_magic t with Some _ => magic_cost t | None => 1 end.
Proof.
  intro H. unfold metadata_bytes, magic_cost. destruct (tx_magic t) as [m|]; [|reflexivity].
  rewrite dict_size. cbn [map length total fold_right fst snd]. rewrite size_app, head_1 by lia. rewrite tstr_size.
  specialize (H m eq_refl). pose proof (head_2 3 (N.of_nat (String.length (snd m))) ltac:(lia)). change (size (uint 87)) with 2. lia.
Qed.
Lemma body_size t : Forall wf_in (tx_ins t) -> Forall simple_out (tx_outs t) -> N.of_nat (length (tx_ins t)) < 2 ^ 16 -> N.of_nat (length (tx_outs t)) < 2 ^ 16 ->
  (forall m, tx_magic t = Some m -> long 32 (fst m)) ->
  size (body_bytes t) <= 19 + 38 * N.of_nat (length (tx_ins t)) + 145 * N.of_nat (length (tx_outs t)) +
    (match tx_ttl t with Some _ => 10 | None => 0 end) + (match tx_magic t with Some _ => 35 | None => 0 end).
Proof.
  intros Fi Fo Ni No Hm. unfold body_bytes. rewrite dict_size, !app_length, !map_app, !total_app. cbn [map length total fold_right fst snd].
  rewrite !size_app, !uint_small by lia. rewrite !arr_size, !map_length.
  pose proof (head_3 4 _ Ni). pose proof (head_3 4 _ No). pose proof (uint_9 (tx_fee t)).
  pose proof (total_bound in_bytes wf_in 38 (tx_ins t) in_size Fi). pose proof (total_bound out_bytes simple_out 145 (tx_outs t) out_size Fo).
  assert (size (head_of 5 (N.of_nat (3 + (length (opt (tx_ttl t) (fun n => (uint 3, uint n))) + length (opt (tx_magic t) (fun m => (uint 7, bstr m.1))))))) = 1) as ->.
  { apply head_1. destruct (tx_ttl t), (tx_magic t); cbn; lia. }
  assert (total (map (fun kv => kv.1 ++ kv.2) (opt (tx_ttl t) (fun n => (uint 3, uint n)))) <= match tx_ttl t with Some _ => 10 | None => 0 end).
  { destruct (tx_ttl t) as [n|]; cbn [opt map total fold_right fst snd]; [|lia]. rewrite size_app, uint_small by lia. pose proof (uint_9 n). lia. }
  assert (total (map (fun kv => kv.1 ++ kv.2) (opt (tx_magic t) (fun m => (uint 7, bstr m.1)))) <= match tx_magic t with Some _ => 35 | None => 0 end).
  { destruct (tx_magic t) as [m|]; cbn [opt map total fold_right fst snd]; [|lia]. rewrite size_app, uint_small, (bstr_32 _ (Hm m eq_refl)) by lia. lia. }
  lia.
Qed.

(** ** Injectivity *)
Lemma byte_inj a b : a < 256 -> b < 256 -> byte a = byte b -> a = b.
Proof. unfold byte. intros A B E. apply (f_equal N_of_ascii) in E. rewrite !N_ascii_embedding in E by assumption. exact E. Qed.
Fixpoint of_be (l : bytes) (acc : N) : N := match l with [] => acc | c :: l => of_be l (256 * acc + N_of_ascii c) end.
Lemma of_be_big k n acc : of_be (big_endian k n) acc = acc * 256 ^ N.of_nat k + n mod 256 ^ N.of_nat k.
Proof.
  revert acc. induction k as [|k IH]; intro acc.
  - cbn. rewrite N.mod_1_r. lia.
  - cbn [big_endian of_be]. rewrite IH. unfold byte. rewrite N_ascii_embedding by (apply N.mod_lt; lia).
    rewrite Nat2N.inj_succ, N.pow_succ_r'. assert (256 ^ N.of_nat k <> 0) as Z by (apply N.pow_nonzero; lia).
    rewrite (N.mul_comm 256 (256 ^ N.of_nat k)). rewrite (N.mod_mul_r n (256 ^ N.of_nat k) 256) by lia. lia.
Qed.
Lemma be_inj k a b : a < 256 ^ N.of_nat k -> b < 256 ^ N.of_nat k -> big_endian k a = big_endian k b -> a = b.
Proof.
  intros A B E. apply (f_equal (fun l => of_be l 0)) in E. rewrite !of_be_big in E.
  rewrite !N.mod_small in E by assumption. lia.
Qed.
Lemma app_same_length {A} (a b x y : list A) : length a = length b -> a ++ x = b ++ y -> a = b /\ x = y.
Proof.
  revert b. induction a as [|c a IH]; intros [|d b] L E; cbn in *; try discriminate; [auto|].
  injection E as -> E. injection L as L. apply IH in E as [-> ->]; auto.
Qed.
Lemma cons_inv {A} (a b : A) x y : a :: x = b :: y -> a = b /\ x = y.
Proof. intro E. injection E. auto. Qed.
Lemma head_inj m a b x y : m < 8 -> a < 2 ^ 64 -> b < 2 ^ 64 -> head_of m a ++ x = head_of m b ++ y -> a = b /\ x = y.
Proof.
  intros M A B. unfold head_of.
  destruct (N.ltb_spec a 24); destruct (N.ltb_spec b 24);
  destruct (N.ltb_spec a (2 ^ 8)); destruct (N.ltb_spec b (2 ^ 8));
  destruct (N.ltb_spec a (2 ^ 16)); destruct (N.ltb_spec b (2 ^ 16));
  destruct (N.ltb_spec a (2 ^ 32)); destruct (N.ltb_spec b (2 ^ 32)); try lia;
  rewrite <- ?app_comm_cons; intro E; apply cons_inv in E as [E1 E2];
  try (apply byte_inj in E1; lia);
  first [ apply app_same_length in E2 as [E2 E3]; [|rewrite !be_length; reflexivity]; apply be_inj in E2; [split; assumption|cbn; lia|cbn; lia]
        | apply byte_inj in E1; [|lia|lia]; split; [lia|exact E2] ].
Qed.
Lemma uint_inj a b x y : a < 2 ^ 64 -> b < 2 ^ 64 -> uint a ++ x = uint b ++ y -> a = b /\ x = y.
Proof. intros. apply (head_inj 0); [lia|assumption..]. Qed.
Lemma bstr_inj a b x y : N.of_nat (String.length a) < 2 ^ 64 -> N.of_nat (String.length b) < 2 ^ 64 -> bstr a ++ x = bstr b ++ y -> a = b /\ x = y.
Proof.
  intros A B E. unfold bstr in E. rewrite <- !app_assoc in E. apply head_inj in E as [L E]; [|lia|exact A|exact B].
  apply app_same_length in E as [E1 E2].
  - split; [apply text_of_inj, E1|exact E2].
  - pose proof (text_size a). pose proof (text_size b). unfold size in *. lia.
Qed.
Lemma keys_inj l l' x y : Forall (long 28) l -> Forall (long 28) l' -> length l = length l' ->
  concat (map script_bytes (map Pubkey l)) ++ x = concat (map script_bytes (map Pubkey l')) ++ y -> l = l' /\ x = y.
Proof.
  intro F. revert l'. induction F as [|k l K F IH]; intros [|k' l'] F' L E; cbn [length] in L; try discriminate; [cbn in E; auto|].
  inversion F' as [|? ? K' F'']; subst. cbn [map concat] in E. cbn [script_bytes] in E. unfold arr in E. cbn [concat length] in E.
  rewrite <- !app_assoc in E. apply head_inj in E as [_ E]; [|lia|lia|lia]. apply uint_inj in E as [_ E]; [|lia|lia].
  unfold long in K, K'. apply bstr_inj in E as [-> E]; [|rewrite K; cbn; lia|rewrite K'; cbn; lia].
  rewrite !app_nil_l in E. apply IH in E as [-> ->]; [auto|exact F''|lia].
Qed.
Lemma plan_script_inj p p' : wf_plan p -> wf_plan p' -> N.of_nat (length (p_keys p)) < 2 ^ 64 -> N.of_nat (length (p_keys p')) < 2 ^ 64 ->
  script_bytes (NOfK (p_quorum p) (map Pubkey (p_keys p))) = script_bytes (NOfK (p_quorum p') (map Pubkey (p_keys p'))) -> p = p'.
Proof.
  destruct p as [q l], p' as [q' l']. intros [Q F] [Q' F'] L L' E. cbn [p_quorum p_keys] in *.
  cbn [script_bytes] in E. unfold arr in E at 1 3. cbn [concat length] in E. rewrite <- ?app_assoc in E.
  apply head_inj in E as [_ E]; [|lia|lia|lia]. apply uint_inj in E as [_ E]; [|lia|lia]. apply uint_inj in E as [-> E]; [|lia|lia].
  unfold arr in E. rewrite !map_length in E. rewrite <- !app_assoc in E. apply head_inj in E as [N E]; [|lia|lia|lia].
  apply keys_inj in E as [-> _]; [reflexivity|assumption|assumption|lia].
Qed.
