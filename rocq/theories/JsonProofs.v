(** Proofs about the JSON and text forms. *)
From Coq Require Import ZArith NArith QArith Ascii String Sorting.Sorted Lia.
From stdpp Require Import prelude numbers strings list.
From Verif Require Import ValueModel ValueSpec ValueProofs EstimModel CardanoModel JsonModel JsonSpec.
Open Scope Z_scope.

(** ** Texts *)
Lemma text_of_of t : text_of (of_text t) = t.
Proof. apply String.list_ascii_of_string_of_list_ascii. Qed.
Lemma of_text_of s : of_text (text_of s) = s.
Proof. apply String.string_of_list_ascii_of_string. Qed.

Lemma digit_char_spec d : 0 <= d <= 9 -> digit_char d = ascii_of_N (48 + Z.to_N d).
Proof.
  intro H.
  assert (d = 0 \/ d = 1 \/ d = 2 \/ d = 3 \/ d = 4 \/ d = 5 \/ d = 6 \/ d = 7 \/ d = 8 \/ d = 9) as C by lia.
  repeat (destruct C as [C|C]; [subst d; reflexivity|]). subst d; reflexivity.
Qed.
Lemma decimal_map ds : Forall (fun d => 0 <= d <= 9) ds -> decimal ds = of_text (map digit_char ds).
Proof.
  intro H. unfold decimal. f_equal. induction H as [|d ds Hd H IH]; [reflexivity|].
  cbn [map]. rewrite IH, digit_char_spec by exact Hd. reflexivity.
Qed.
Lemma is_digit_alt ds : Forall (fun d => 0 <= d <= 9) ds <-> Forall is_digit ds.
Proof. split; intro H; (eapply Forall_impl; [exact H|]); unfold is_digit; cbn; intros; lia. Qed.
Lemma dval_fold ds acc : dval acc ds = fold_left (fun a d => 10 * a + d) ds acc.
Proof. revert acc. induction ds as [|d ds IH]; intro acc; cbn [dval fold_left]; [reflexivity|]. rewrite IH. f_equal. lia. Qed.

Lemma char_digit_inv c d : char_digit c = Some d -> is_digit d /\ c = digit_char d.
Proof.
  unfold char_digit. destruct (_ && _) eqn:E; [|discriminate]. intros [= <-].
  apply andb_true_iff in E as [A B]. apply Z.leb_le in A, B.
  split; [unfold is_digit; lia|]. unfold digit_char.
  replace (48 + Z.to_nat (Z.of_nat (nat_of_ascii c) - 48))%nat with (nat_of_ascii c) by lia.
  symmetry. apply ascii_nat_embedding.
Qed.
Lemma read_digits_inv t acc z : read_digits acc t = Some z -> exists ds, t = map digit_char ds /\ Forall is_digit ds /\ z = dval acc ds.
Proof.
  revert acc. induction t as [|c t IH]; intros acc E; cbn [read_digits] in E.
  - injection E as <-. exists []. repeat split; constructor.
  - destruct (char_digit c) as [d|] eqn:Ed; [|discriminate].
    apply char_digit_inv in Ed as [Hd ->]. apply IH in E as (ds & -> & F & ->).
    exists (d :: ds). repeat split. constructor; assumption.
Qed.

Lemma big_spec z n : 0 <= z -> (big (Z.to_N z) = Some n <-> z = Z.of_N n /\ u64 n).
Proof.
  intro Hz. unfold big, u64, u64_bound. destruct (N.ltb_spec (Z.to_N z) (2 ^ 64)) as [L|L].
  - split; [intros [= <-]; split; [lia|exact L]|]. intros [-> H]. f_equal. lia.
  - split; [discriminate|]. intros [-> H]. lia.
Qed.

Lemma plus_not_digit d : is_digit d -> Ascii.eqb (digit_char d) "+" = false.
Proof. intro H. apply digit_char_not_sign in H. unfold sign_char in H. apply orb_false_iff in H. apply H. Qed.

Lemma parse_u64_digits ds : ds <> [] -> Forall is_digit ds -> parse_u64 (map digit_char ds) = big (Z.to_N (dval 0 ds)).
Proof.
  intros Hn H. destruct ds as [|d ds]; [congruence|]. unfold parse_u64. cbn [map].
  rewrite plus_not_digit by (inversion H; assumption).
  change (digit_char d :: map digit_char ds) with (map digit_char (d :: ds)). rewrite read_digits_map by exact H.
  reflexivity.
Qed.
Lemma parse_u64_plus ds : ds <> [] -> Forall is_digit ds -> parse_u64 ("+"%char :: map digit_char ds) = big (Z.to_N (dval 0 ds)).
Proof.
  intros Hn H. destruct ds as [|d ds]; [congruence|]. unfold parse_u64. cbn [map].
  change (Ascii.eqb "+" "+") with true. cbn iota.
  change (digit_char d :: map digit_char ds) with (map digit_char (d :: ds)). rewrite read_digits_map by exact H.
  reflexivity.
Qed.

Lemma u64_of_str_spec s n : u64_of_str s = Some n <-> text_number s (Z.of_N n) /\ u64 n.
Proof.
  split.
  - intro E. unfold u64_of_str in E.
    assert (exists ds, ds <> [] /\ Forall is_digit ds /\ big (Z.to_N (dval 0 ds)) = Some n /\
              (text_of s = map digit_char ds \/ text_of s = "+"%char :: map digit_char ds)) as (ds & Hn & F & B & D).
    { unfold parse_u64 in E. destruct (text_of s) as [|c t]; [discriminate|].
      destruct (Ascii.eqb_spec c "+") as [-> |Hc].
      - destruct t as [|c' t']; [discriminate|]. destruct (read_digits 0 (c' :: t')) as [z|] eqn:R; [|discriminate].
        apply read_digits_inv in R as (ds & Et & F & ->). exists ds. rewrite <- Et.
        split; [intros ->; discriminate|]. split; [exact F|]. split; [exact E|]. right. reflexivity.
      - destruct (read_digits 0 (c :: t)) as [z|] eqn:R; [|discriminate].
        apply read_digits_inv in R as (ds & Et & F & ->). exists ds. rewrite <- Et.
        split; [intros ->; discriminate|]. split; [exact F|]. split; [exact E|]. left. reflexivity. }
    pose proof (dval_bound ds F) as [P _]. apply big_spec in B as [V U]; [|exact P].
    split; [|exact U]. exists ds. apply is_digit_alt in F as F'. repeat split; try assumption.
    + rewrite <- V, dval_fold. reflexivity.
    + rewrite decimal_map by exact F'. rewrite <- (of_text_of s). destruct D as [-> | ->]; [left|right]; reflexivity.
  - intros [(ds & Hn & F & V & D) U]. rewrite decimal_map in D by exact F. apply is_digit_alt in F.
    rewrite <- dval_fold in V. unfold u64_of_str.
    assert (big (Z.to_N (dval 0 ds)) = Some n) as B by (rewrite <- V; apply big_spec; [lia|split; [reflexivity|exact U]]).
    destruct D as [-> | ->].
    + rewrite text_of_of. rewrite parse_u64_digits by assumption. exact B.
    + change (text_of ("+" ++ of_text (map digit_char ds))) with ("+"%char :: text_of (of_text (map digit_char ds))).
      rewrite text_of_of. rewrite parse_u64_plus by assumption. exact B.
Qed.

Lemma display_digits n : exists ds, ds <> [] /\ Forall is_digit ds /\ dval 0 ds = Z.of_N n /\ display_u64 n = of_text (map digit_char ds).
Proof.
  destruct (show_nat_digits (Z.of_N n)) as (es & E & F & V & NE); [lia|].
  exists es. unfold display_u64. rewrite E. auto.
Qed.
Lemma u64_of_display n : u64 n -> u64_of_str (display_u64 n) = Some n.
Proof.
  intro U. apply u64_of_str_spec. split; [|exact U].
  destruct (display_digits n) as (ds & NE & F & V & D). apply is_digit_alt in F as F'.
  exists ds. rewrite <- dval_fold. repeat split; try assumption; [lia|]. left. rewrite decimal_map by exact F'. exact D.
Qed.
Lemma display_inj n m : display_u64 n = display_u64 m -> n = m.
Proof.
  intro E. destruct (display_digits n) as (a & _ & Fa & Va & Da). destruct (display_digits m) as (b & _ & Fb & Vb & Db).
  rewrite Da, Db in E. apply (f_equal text_of) in E. rewrite !text_of_of in E.
  pose proof (read_digits_map 0 a Fa) as Ra. rewrite E, (read_digits_map 0 b Fb) in Ra. injection Ra as Ra. lia.
Qed.

Definition at_free (t : list ascii) : Prop := Forall (fun c => c <> "@"%char) t.
Lemma last_at a b x y : at_free x -> at_free y -> a ++ "@"%char :: x = b ++ "@"%char :: y -> a = b /\ x = y.
Proof.
  revert b. induction a as [|c a IH]; intros [|d b] Fx Fy E; cbn [app] in E.
  - injection E as ->. auto.
  - injection E as <- ->. apply Forall_app in Fx as [_ Fx]. apply Forall_cons in Fx as [Fx _]. destruct Fx; reflexivity.
  - injection E as -> E. subst y. apply Forall_app in Fy as [_ Fy]. apply Forall_cons in Fy as [Fy _]. destruct Fy; reflexivity.
  - injection E as -> E. apply IH in E as [-> ->]; auto.
Qed.
Lemma display_at_free n : at_free (text_of (display_u64 n)).
Proof.
  destruct (display_digits n) as (a & _ & Fa & _ & ->). rewrite text_of_of. unfold at_free.
  induction Fa as [|d ds Hd F IH]; [constructor|]. cbn [map]. constructor; [|exact IH].
  intro E. apply char_digit_char in Hd. rewrite E in Hd. discriminate.
Qed.
Lemma text_of_app a b : text_of (a ++ b)%string = text_of a ++ text_of b.
Proof. induction a as [|c a IH]; [reflexivity|]. change (c :: text_of (a ++ b)%string = c :: (text_of a ++ text_of b)). rewrite IH. reflexivity. Qed.
Lemma text_of_inj a b : text_of a = text_of b -> a = b.
Proof. intro E. rewrite <- (of_text_of a), <- (of_text_of b), E. reflexivity. Qed.
Lemma display_pointer_inj p q : display_pointer p = display_pointer q -> p = q.
Proof.
  destruct p as [t i], q as [u k]. unfold display_pointer; cbn [pt_tx pt_index]. intro E.
  apply (f_equal text_of) in E. rewrite !text_of_app in E.
  change (text_of "@") with ["@"%char] in E. cbn [app] in E.
  apply last_at in E as [A B]; try apply display_at_free.
  apply text_of_inj in A as ->. apply text_of_inj, display_inj in B as ->. reflexivity.
Qed.

(** ** Values *)
Lemma write_read_u64 n : u64 n -> read_u64 (write_u64 n) = Some n.
Proof.
  unfold u64, write_u64, read_u64. intro U.
  assert ((0 <=? Z.of_N n) && (Z.of_N n <? 2 ^ 64) = true) as ->; [|f_equal; lia].
  apply andb_true_iff. rewrite Z.leb_le, Z.ltb_lt. lia.
Qed.
Lemma read_u64_spec j n : read_u64 j = Some n <-> j = JInt (Z.of_N n) /\ u64 n.
Proof.
  unfold read_u64, u64. destruct j; try (split; [discriminate|intros [[=] _]]).
  destruct ((0 <=? z) && (z <? 2 ^ 64)) eqn:E.
  - apply andb_true_iff in E. rewrite Z.leb_le, Z.ltb_lt in E. split; [intros [= <-]; split; [f_equal; lia|lia]|].
    intros [[= ->] H]. f_equal. lia.
  - split; [discriminate|]. intros [[= ->] H]. apply andb_false_iff in E. rewrite Z.leb_gt, Z.ltb_ge in E. lia.
Qed.
Lemma write_read_number n : u64 n -> read_number (write_u64 n) = Some n.
Proof. apply write_read_u64. Qed.
Lemma write_read_value v : exists w, read_value (write_value v) = Some w /\ same_amount v w.
Proof.
  unfold read_value, write_value. rewrite text_of_of. destruct (parse_show_amount v) as (w & E & Q).
  exists w. split; [exact E|]. unfold same_amount. symmetry. exact Q.
Qed.

Lemma same_amount_refl v : same_amount v v. Proof. unfold same_amount. reflexivity. Qed.

(** ** serde_json::Value *)
Section json_ind.
  Variable P : json -> Prop.
  Hypothesis Hnull : P JNull.
  Hypothesis Hbool : forall b, P (JBool b).
  Hypothesis Hint : forall z, P (JInt z).
  Hypothesis Hfloat : forall f, P (JFloat f).
  Hypothesis Hstr : forall s, P (JStr s).
  Hypothesis Harr : forall l, Forall P l -> P (JArr l).
  Hypothesis Hobj : forall l, Forall (fun kv => P (snd kv)) l -> P (JObj l).
  Fixpoint json_nested_ind (j : json) : P j :=
    match j with
    | JNull => Hnull | JBool b => Hbool b | JInt z => Hint z | JFloat f => Hfloat f | JStr s => Hstr s
    | JArr l => Harr l ((fix go l : Forall P l := match l with [] => Forall_nil_2 _ | x :: r => Forall_cons_2 _ _ _ (json_nested_ind x) (go r) end) l)
    | JObj l => Hobj l ((fix go l : Forall (fun kv => P (snd kv)) l :=
                           match l with [] => Forall_nil_2 _ | x :: r => Forall_cons_2 _ _ _ (json_nested_ind (snd x)) (go r) end) l)
    end.
End json_ind.

Definition on_values (f : json -> json) (l : list (string * json)) : list (string * json) := map (fun kv => (fst kv, f (snd kv))) l.
Definition collect (l m : list (string * json)) : list (string * json) := fold_left (fun m kv => insert_key (fst kv) (snd kv) m) l m.
Lemma read_json_obj l : read_json (JObj l) = JObj (collect (on_values read_json l) []).
Proof.
  cbn [read_json]. f_equal. unfold collect, on_values. f_equal.
  induction l as [|[k v] l IH]; [reflexivity|]. cbn [map fst snd]. rewrite <- IH. reflexivity.
Qed.

(** String.compare is a strict order *)
Lemma compare_refl s : String.compare s s = Eq.
Proof. induction s as [|c s IH]; [reflexivity|]. cbn. unfold Ascii.compare. rewrite N.compare_refl. exact IH. Qed.
Lemma ascii_compare_N a b : Ascii.compare a b = N.compare (N_of_ascii a) (N_of_ascii b).
Proof. reflexivity. Qed.
Lemma compare_trans a b c : String.compare a b = Lt -> String.compare b c = Lt -> String.compare a c = Lt.
Proof.
  revert b c. induction a as [|x a IH]; intros [|y b] [|z c]; cbn [String.compare]; try congruence; try discriminate.
  rewrite !ascii_compare_N.
  destruct (N.compare_spec (N_of_ascii x) (N_of_ascii y)) as [E|E|E]; try discriminate;
  destruct (N.compare_spec (N_of_ascii y) (N_of_ascii z)) as [E'|E'|E']; try discriminate; intros A B.
  - rewrite E, E', N.compare_refl. eapply IH; eassumption.
  - destruct (N.compare_spec (N_of_ascii x) (N_of_ascii z)); try lia; reflexivity.
  - destruct (N.compare_spec (N_of_ascii x) (N_of_ascii z)); try lia; reflexivity.
  - destruct (N.compare_spec (N_of_ascii x) (N_of_ascii z)); try lia; reflexivity.
Qed.
Lemma compare_flip a b : String.compare a b = CompOpp (String.compare b a).
Proof. apply String.compare_antisym. Qed.
Lemma compare_gt a b : String.compare a b = Gt <-> String.compare b a = Lt.
Proof. rewrite (compare_flip a b). destruct (String.compare b a); cbn; split; congruence. Qed.

Lemma insert_comm k v k' v' m : k <> k' -> insert_key k v (insert_key k' v' m) = insert_key k' v' (insert_key k v m).
Proof.
  assert (forall k v k' v' m, String.compare k k' = Lt -> insert_key k v (insert_key k' v' m) = insert_key k' v' (insert_key k v m)) as L.
  { clear. intros k v k' v' m C. assert (String.compare k' k = Gt) as C' by (apply compare_gt; exact C).
    induction m as [|[e w] m IH]; cbn [insert_key].
    - rewrite C, C'. reflexivity.
    - destruct (String.compare k' e) eqn:A; destruct (String.compare k e) eqn:B; cbn [insert_key]; rewrite ?A, ?B, ?C, ?C'; cbn [insert_key]; rewrite ?A, ?B, ?C, ?C'; try reflexivity.
      + apply String.compare_eq_iff in A, B. subst. rewrite compare_refl in C. discriminate.
      + apply compare_gt in B. apply String.compare_eq_iff in A. subst. pose proof (compare_trans _ _ _ B C). rewrite compare_refl in *. discriminate.
      + apply String.compare_eq_iff in B. subst. pose proof (compare_trans _ _ _ A C). rewrite compare_refl in *. discriminate.
      + apply compare_gt in B. pose proof (compare_trans _ _ _ (compare_trans _ _ _ C A) B). rewrite compare_refl in *. discriminate.
      + f_equal. exact IH. }
  intro N. destruct (String.compare k k') eqn:C.
  - apply String.compare_eq_iff in C. congruence.
  - apply L, C.
  - symmetry. apply L, compare_gt, C.
Qed.
Lemma collect_perm l l' m : NoDup (map fst l) -> l ≡ₚ l' -> collect l m = collect l' m.
Proof.
  intros ND P. revert m. induction P as [|[k v] l l' P IH|[k v] [k' v'] l|l l' l'' P IH P' IH']; intro m.
  - reflexivity.
  - cbn. apply IH. inversion ND; assumption.
  - cbn in *. f_equal. apply insert_comm. inversion ND as [|? ? Hn]; subst. intros ->. apply Hn. left.
  - rewrite IH by exact ND. apply IH'. rewrite <- P. exact ND.
Qed.
Lemma insert_last k v m : Forall (fun kv => String.compare (fst kv) k = Lt) m -> insert_key k v m = m ++ [(k, v)].
Proof.
  induction 1 as [|[e w] m He F IH]; [reflexivity|]. cbn [insert_key app].
  cbn in He. rewrite (compare_flip k e), He. cbn. f_equal. exact IH.
Qed.
Lemma collect_sorted l m : Forall (fun x => Forall (fun y => String.compare (fst x) (fst y) = Lt) l) m ->
  StronglySorted (fun x y => String.compare (fst x) (fst y) = Lt) l -> collect l m = m ++ l.
Proof.
  revert m. induction l as [|[k v] l IH]; intros m F S; [cbn; rewrite app_nil_r; reflexivity|].
  inversion S as [|? ? S' H]; subst. cbn [collect fold_left fst snd]. rewrite insert_last.
  - change (collect l (m ++ [(k, v)]) = m ++ (k, v) :: l). rewrite IH; [rewrite <- app_assoc; reflexivity| |exact S'].
    apply Forall_app. split; [|constructor; [exact H|constructor]].
    eapply Forall_impl; [exact F|]. intros x Hx. inversion Hx; assumption.
  - eapply Forall_impl; [exact F|]. intros x Hx. inversion Hx; assumption.
Qed.
Lemma read_json_value j : a_value j -> read_json j = j.
Proof.
  induction j as [| | | | |l IH|l IH] using json_nested_ind; intro A; try reflexivity.
  - inversion A as [| | | | |? F|]; subst. cbn [read_json]. f_equal.
    revert F. induction IH as [|x l Hx IH IHl]; intro F; [reflexivity|]. inversion F; subst. cbn [map]. f_equal; auto. apply IHl; [constructor; assumption|assumption].
  - inversion A as [| | | | | |? S F]; subst. rewrite read_json_obj. f_equal.
    assert (on_values read_json l = l) as ->.
    { clear S A. revert F. induction IH as [|[k v] l Hx IH IHl]; intro F; [reflexivity|]. inversion F as [|? ? Fv Fl]; subst. cbn in *. rewrite Hx by exact Fv. f_equal. apply IHl, Fl. }
    rewrite collect_sorted; [reflexivity|constructor|exact S].
Qed.

(** ** Reordering *)
Definition respects {A} (read : json -> option A) : Prop := forall j j', reordered j j' -> read j = read j'.
Lemma on_values_keys f l : map fst (on_values f l) = map fst l.
Proof. unfold on_values. rewrite map_map. reflexivity. Qed.
Lemma read_json_reordered j j' : reordered j j' -> read_json j = read_json j'.
Proof.
  revert j'. induction j as [| | | | |l IH|l IH] using json_nested_ind; intros j' R; inversion R as [| | | | |? l' F|? m l' ND F P]; subst; try reflexivity.
  - cbn [read_json]. f_equal. clear R. revert IH. induction F as [|x y l l' H F IHF]; intro IH; [reflexivity|].
    inversion IH as [|? ? Hx Hl]; subst. cbn [map]. f_equal; [apply Hx, H|apply IHF, Hl].
  - rewrite !read_json_obj. f_equal.
    assert (on_values read_json l = on_values read_json m) as E.
    { clear ND P R. revert IH. induction F as [|x y l m [K H] F IHF]; intro IH; [reflexivity|].
      inversion IH as [|? ? Hx Hl]; subst. unfold on_values in *. cbn [map]. f_equal; [|apply IHF, Hl]. rewrite K. f_equal. apply Hx, H. }
    rewrite E. apply collect_perm; [|unfold on_values; apply fmap_Permutation, P].
    rewrite <- E, on_values_keys. exact ND.
Qed.

Lemma find_field_cons k v l n : find_field ((k, v) :: l) n = if String.eqb k n then Some v else find_field l n.
Proof. unfold find_field. cbn. destruct (String.eqb k n); reflexivity. Qed.
Lemma count_field_cons k v l n : count_field ((k, v) :: l) n = ((if String.eqb k n then 1 else 0) + count_field l n)%nat.
Proof. unfold count_field. cbn. destruct (String.eqb k n); reflexivity. Qed.
Lemma count_perm l l' n : l ≡ₚ l' -> count_field l n = count_field l' n.
Proof. induction 1 as [|[k v]|[k v] [k' v']|]; rewrite ?count_field_cons; lia. Qed.
Lemma count_absent l n : count_field l n = 0%nat <-> find_field l n = None.
Proof.
  induction l as [|[k v] l IH]; [split; reflexivity|]. rewrite count_field_cons, find_field_cons.
  destruct (String.eqb k n); [split; [lia|discriminate]|]. rewrite <- IH. reflexivity.
Qed.
Lemma find_perm l l' n : l ≡ₚ l' -> (count_field l n <= 1)%nat -> find_field l n = find_field l' n.
Proof.
  intro P. induction P as [|[k v] l l' P IH|[k v] [k' v'] l|l l' l'' P IH P' IH']; intro C.
  - reflexivity.
  - rewrite !find_field_cons. rewrite count_field_cons in C. destruct (String.eqb k n); [reflexivity|apply IH; lia].
  - rewrite !find_field_cons. rewrite !count_field_cons in C. destruct (String.eqb k n), (String.eqb k' n); try reflexivity. lia.
  - rewrite IH by exact C. apply IH'. rewrite <- (count_perm _ _ _ P). exact C.
Qed.
Lemma struct_fields_perm names deny l l' : l ≡ₚ l' -> struct_fields names deny (JObj l) = struct_fields names deny (JObj l').
Proof.
  intro P. cbn [struct_fields].
  assert (forallb (fun kv => known names (fst kv)) l = forallb (fun kv => known names (fst kv)) l') as ->.
  { clear deny. induction P as [|x|x y|? ? ? ? E ? E']; cbn; [reflexivity|rewrite IHP; reflexivity|rewrite !andb_assoc, (andb_comm (known names (fst x))); reflexivity|congruence]. }
  assert (forallb (fun n => Nat.leb (count_field l n) 1) names = forallb (fun n => Nat.leb (count_field l' n) 1) names) as E.
  { induction names as [|n names IH]; [reflexivity|]. cbn. rewrite IH, (count_perm _ _ _ P). reflexivity. }
  rewrite <- E. destruct (_ && _) eqn:G; [|reflexivity]. apply andb_true_iff in G as [G _].
  f_equal. clear E. induction names as [|n names IH]; [reflexivity|]. cbn in *. apply andb_true_iff in G as [G1 G2].
  f_equal; [|apply IH, G2]. apply find_perm; [exact P|]. apply Nat.leb_le, G1.
Qed.
Definition fields_rel : option (list (option json)) -> option (list (option json)) -> Prop := option_Forall2 (Forall2 (option_Forall2 reordered)).
Lemma struct_fields_pointwise names deny l m : Forall2 (fun x y => fst x = fst y /\ reordered (snd x) (snd y)) l m ->
  fields_rel (struct_fields names deny (JObj l)) (struct_fields names deny (JObj m)).
Proof.
  intro F. cbn [struct_fields].
  assert (forall n, count_field l n = count_field m n) as C.
  { intro n. induction F as [|[k v] [k' v'] l m [K _] F IH]; [reflexivity|]. cbn in K. subst. rewrite !count_field_cons, IH. reflexivity. }
  assert (forall n, option_Forall2 reordered (find_field l n) (find_field m n)) as D.
  { clear C. intro n. induction F as [|[k v] [k' v'] l m [K H] F IH]; [constructor|]. cbn in K, H. subst. rewrite !find_field_cons.
    destruct (String.eqb k' n); [constructor; exact H|exact IH]. }
  assert (forallb (fun kv => known names (fst kv)) l = forallb (fun kv => known names (fst kv)) m) as E.
  { clear C D. induction F as [|[k v] [k' v'] l m [K H] F IH]; [reflexivity|]. cbn in *. subst. rewrite IH. reflexivity. }
  assert (forallb (fun n => Nat.leb (count_field l n) 1) names = forallb (fun n => Nat.leb (count_field m n) 1) names) as G.
  { induction names as [|n names IH]; [reflexivity|]. cbn. rewrite C. f_equal. apply IH. clear -E F. induction F as [|[k v] [k' v'] l m [K H] F IH]; [reflexivity|]. cbn in *. subst. rewrite IH by (destruct (known (n :: names) k'); cbn in *; congruence || (clear -F; induction F as [|[k v] [k' v''] l m [K H] F IH]; cbn in *; subst; rewrite ?IH; reflexivity)). reflexivity. }
  rewrite E, G. destruct (_ && _); [|constructor]. constructor.
  clear E G. induction names as [|n names IH]; cbn; constructor; auto.
Qed.
Lemma struct_fields_reordered names deny j j' : reordered j j' -> fields_rel (struct_fields names deny j) (struct_fields names deny j').
Proof.
  intro R. inversion R as [| | | | |l l' F|l m l' ND F P]; subst; try constructor.
  - cbn [struct_fields]. rewrite (Forall2_length _ _ _ F). destruct (Nat.leb _ _); [|constructor]. constructor.
    apply Forall2_app; [|apply Forall2_same_length_lookup_2; [reflexivity|]].
    + apply Forall2_fmap. eapply Forall2_impl; [exact F|]. intros. constructor. assumption.
    + intros i x y Hx Hy. apply lookup_replicate in Hx as [-> _]. apply lookup_replicate in Hy as [-> _]. constructor.
  - rewrite <- (struct_fields_perm names deny m l' P). apply struct_fields_pointwise, F.
Qed.

Lemma required_rel {A} (R : json -> option A) o o' : respects R -> option_Forall2 reordered o o' -> required R o = required R o'.
Proof. intros H [j j' E|]; cbn; auto. Qed.
Lemma defaulted_rel {A} (R : json -> option A) d o o' : respects R -> option_Forall2 reordered o o' -> defaulted R d o = defaulted R d o'.
Proof. intros H [j j' E|]; cbn; auto. Qed.

Lemma respects_string : respects read_string. Proof. intros j j' []; reflexivity. Qed.
Lemma respects_bool : respects read_bool. Proof. intros j j' []; reflexivity. Qed.
Lemma respects_u64 : respects read_u64. Proof. intros j j' []; reflexivity. Qed.
Lemma respects_u8 : respects read_u8. Proof. intros j j' []; reflexivity. Qed.
Lemma respects_number : respects read_number. Proof. intros j j' []; reflexivity. Qed.
Lemma respects_value : respects read_value. Proof. intros j j' []; reflexivity. Qed.
Lemma respects_json : respects (fun j => Some (read_json j)).
Proof. intros j j' R. rewrite (read_json_reordered _ _ R). reflexivity. Qed.
Lemma respects_list {A} (R : json -> option A) : respects R -> respects (read_list R).
Proof.
  intros H j j' E. destruct E as [| | | | |l l' F|l m l' ND F P]; try reflexivity. cbn [read_list].
  induction F as [|x y l l' Hx F IH]; [reflexivity|]. cbn. rewrite (H _ _ Hx), IH. reflexivity.
Qed.
Lemma respects_option {A} (R : json -> option A) : respects R -> respects (read_option R).
Proof.
  intros H j j' E. pose proof (H _ _ E) as Q. destruct E; cbn [read_option]; rewrite ?Q; reflexivity.
Qed.

(** reading a struct through its fields *)
Ltac fields names deny j j' R :=
  let Q := fresh "Q" in
  pose proof (struct_fields_reordered names deny j j' R) as Q;
  destruct Q as [?l ?l' Q|]; [|reflexivity];
  repeat (match goal with
          | H : Forall2 _ ?l ?l' |- _ => is_var l; destruct H as [|? ? ? ? ? H]; cbn iota; try reflexivity
          end).

Lemma respects_pointer : respects pointer_of_json.
Proof.
  intros j j' R. unfold pointer_of_json. fields ["transactionId"; "outputIndex"]%string true j j' R.
  rewrite (required_rel read_string _ _ respects_string H), (required_rel read_index _ _ respects_u64 H0). reflexivity.
Qed.
Lemma respects_asset : respects asset_of_json.
Proof.
  intros j j' R. unfold asset_of_json. fields ["policyId"; "assetName"; "fingerprint"; "quantity"]%string true j j' R.
  rewrite (required_rel read_string _ _ respects_string H), (required_rel read_string _ _ respects_string H0),
    (required_rel read_string _ _ respects_string H1), (required_rel read_value _ _ respects_value H2). reflexivity.
Qed.
Lemma respects_details : respects details_of_json.
Proof.
  intros j j' R. unfold details_of_json. fields ["pointer"; "address"; "value"; "assets"; "metadata"; "extra"]%string false j j' R.
  rewrite (required_rel _ _ _ respects_pointer H), (required_rel read_string _ _ respects_string H0), (required_rel read_value _ _ respects_value H1),
    (defaulted_rel _ [] _ _ (respects_list _ respects_asset) H2), (required_rel _ _ _ respects_json H3),
    (defaulted_rel _ None _ _ (respects_option _ respects_string) H4). reflexivity.
Qed.
Lemma respects_builder : respects builder_of_json.
Proof.
  intros j j' R. unfold builder_of_json. fields ["address"; "value"; "assets"; "extra"]%string false j j' R.
  rewrite (required_rel read_string _ _ respects_string H), (required_rel read_value _ _ respects_value H0),
    (required_rel _ _ _ (respects_list _ respects_asset) H1), (defaulted_rel _ None _ _ (respects_option _ respects_string) H2). reflexivity.
Qed.
Lemma respects_transaction : respects transaction_of_json.
Proof.
  intros j j' R. unfold transaction_of_json. fields ["transactionId"; "inputs"; "outputs"; "metadata"]%string true j j' R.
  rewrite (required_rel read_string _ _ respects_string H), (required_rel _ _ _ (respects_list _ respects_pointer) H0),
    (required_rel _ _ _ (respects_list _ respects_details) H1), (defaulted_rel _ JNull _ _ respects_json H2). reflexivity.
Qed.
Lemma respects_bytes : respects read_bytes.
Proof. intros j j' R. unfold read_bytes. rewrite (respects_list _ respects_u8 _ _ R). reflexivity. Qed.
Lemma respects_bevent : respects bevent_of_json.
Proof.
  intros j j' R. unfold bevent_of_json. fields event_names false j j' R.
  rewrite (required_rel read_string _ _ respects_string H), (required_rel read_string _ _ respects_string H0), (required_rel _ _ _ respects_number H1),
    (required_rel _ _ _ respects_bytes H2), (required_rel _ _ _ respects_number H3), (required_rel _ _ _ respects_bool H4),
    (required_rel _ _ _ respects_u64 H5). reflexivity.
Qed.
Lemma tagged_reordered j j' : reordered j j' -> option_Forall2 (fun x y => fst x = fst y /\ reordered (snd x) (snd y)) (tagged j) (tagged j').
Proof.
  intros [| | | | |l l' F|l m l' ND F P]; try constructor.
  destruct F as [|[k v] [k' v'] l m [K H] F].
  - apply Permutation_nil_l in P. subst. constructor.
  - destruct F as [|[k2 v2] y l m K2 F].
    + apply Permutation_singleton_l in P. subst l'. constructor. split; assumption.
    + cbn [tagged]. pose proof (Permutation_length P) as L. destruct l' as [|[] [|? ?]]; [discriminate|discriminate|constructor].
Qed.
Lemma respects_event {tip} : respects (@event_of_json tip).
Proof.
  intros j j' R. unfold event_of_json. destruct (tagged_reordered _ _ R) as [[k v] [k' v'] [K H]|]; [|reflexivity].
  cbn in K, H. subst. destruct (String.eqb k' "Block"); [|reflexivity]. rewrite (respects_bevent _ _ H). reflexivity.
Qed.
Lemma respects_point : respects point_of_json.
Proof.
  intros j j' R. destruct R as [| | | | |l l' F|l m l' ND F P]; try reflexivity.
  assert (reordered (JObj l) (JObj l')) as R by (econstructor; eassumption). unfold point_of_json.
  destruct (tagged_reordered _ _ R) as [[k v] [k' v'] [K H]|]; [|reflexivity].
  cbn in K, H. subst. destruct (String.eqb k' "Origin"); [destruct H; reflexivity|].
  destruct (String.eqb k' "BlockHeader"); [|reflexivity].
  clear R ND F P. fields ["slot_nb"; "hash"]%string false v v' H.
  rewrite (required_rel _ _ _ respects_number H0), (required_rel _ _ _ respects_string H1). reflexivity.
Qed.
Lemma respects_config : respects config_of_json.
Proof.
  intros j j' R. unfold config_of_json. fields ["storage_path"; "use_key_indexing"; "readonly"]%string true j j' R.
  rewrite (required_rel _ _ _ (respects_option _ respects_string) H), (defaulted_rel _ None _ _ (respects_option _ respects_string) H),
    (defaulted_rel _ false _ _ respects_bool H0), (defaulted_rel _ false _ _ respects_bool H1). destruct R; reflexivity.
Qed.

(** ** Round trips *)
Lemma write_read_list {A B} (w : A -> json) (r : json -> option B) (same : A -> B -> Prop) l :
  (forall a, a ∈ l -> exists b, r (w a) = Some b /\ same a b) -> exists l', read_list r (write_list w l) = Some l' /\ Forall2 same l l'.
Proof.
  intro H. cbn [read_list write_list]. induction l as [|a l IH]; [exists []; split; [reflexivity|constructor]|].
  destruct (H a) as (b & E & S); [left|]. destruct IH as (l' & E' & S'); [intros; apply H; right; assumption|].
  exists (b :: l'). split; [|constructor; assumption]. cbn. rewrite E. cbn. cbn in E'. rewrite E'. reflexivity.
Qed.
Lemma write_read_list_eq {A} (w : A -> json) (r : json -> option A) l : (forall a, a ∈ l -> r (w a) = Some a) -> read_list r (write_list w l) = Some l.
Proof.
  intro H. destruct (write_read_list w r eq l) as (l' & E & S); [intros a Ha; exists a; auto|].
  rewrite E. f_equal. symmetry. clear -S. induction S; congruence.
Qed.

Lemma pointer_rt p : a_pointer p -> pointer_of_json (pointer_to_json p) = Some p.
Proof.
  destruct p as [t i]. unfold a_pointer; cbn [pt_index]. intro U. unfold pointer_of_json, pointer_to_json. cbn [pt_tx pt_index].
  change (struct_fields _ true _) with (Some [Some (JStr t); Some (write_u64 i)]). cbn iota.
  cbn [required read_string mbind option_bind]. unfold read_index. rewrite (write_read_u64 i U). reflexivity.
Qed.
Lemma asset_rt a : exists b, asset_of_json (asset_to_json a) = Some b /\ same_asset a b.
Proof.
  destruct a as [p n f q]. destruct (write_read_value q) as (w & E & S).
  exists (Asset p n f w). split; [|repeat split; exact S]. unfold asset_of_json.
  change (struct_fields _ true _) with (Some [Some (JStr p); Some (JStr n); Some (JStr f); Some (write_value q)]).
  cbn iota. cbn [required read_string mbind option_bind]. rewrite E. reflexivity.
Qed.
Lemma option_rt (o : option string) : read_option read_string (write_option JStr o) = Some o.
Proof. destruct o; reflexivity. Qed.
Lemma details_rt d : a_details d -> exists e, details_of_json (details_to_json d) = Some e /\ same_details d e.
Proof.
  destruct d as [p x v l m t]. intros [Hp Hm]; cbn in Hp, Hm.
  destruct (write_read_value v) as (w & Ew & Sw).
  destruct (write_read_list asset_to_json asset_of_json same_asset l) as (l' & El & Sl); [intros a _; apply asset_rt|].
  exists (Details p x w l' m t). split; [|repeat split; assumption]. unfold details_of_json, details_to_json.
  cbn [dt_pointer dt_address dt_value dt_assets dt_metadata dt_extra].
  change (struct_fields _ false _) with
    (Some [Some (pointer_to_json p); Some (JStr x); Some (write_value v); Some (write_list asset_to_json l); Some m; Some (write_option JStr t)]).
  cbn iota. cbn [required defaulted]. rewrite (pointer_rt p Hp). cbn [read_string mbind option_bind]. rewrite Ew, El, option_rt, read_json_value by exact Hm. reflexivity.
Qed.
Lemma builder_rt b : exists c, builder_of_json (builder_to_json b) = Some c /\ same_builder b c.
Proof.
  destruct b as [x v l t].
  destruct (write_read_value v) as (w & Ew & Sw).
  destruct (write_read_list asset_to_json asset_of_json same_asset l) as (l' & El & Sl); [intros a _; apply asset_rt|].
  exists (Builder x w l' t). split; [|repeat split; assumption]. unfold builder_of_json, builder_to_json.
  cbn [bd_address bd_value bd_assets bd_extra].
  change (struct_fields _ false _) with (Some [Some (JStr x); Some (write_value v); Some (write_list asset_to_json l); Some (write_option JStr t)]).
  cbn iota. cbn [required defaulted read_string mbind option_bind]. rewrite Ew, El, option_rt. reflexivity.
Qed.
Lemma transaction_rt t : a_transaction t -> exists u, transaction_of_json (transaction_to_json t) = Some u /\ same_transaction t u.
Proof.
  destruct t as [x i o m]. intros (Hi & Ho & Hm); cbn in Hi, Ho, Hm.
  assert (read_list pointer_of_json (write_list pointer_to_json i) = Some i) as Ei.
  { apply write_read_list_eq. intros a Ha. apply pointer_rt. rewrite Forall_forall in Hi. apply Hi, Ha. }
  destruct (write_read_list details_to_json details_of_json same_details o) as (o' & Eo & So).
  { intros a Ha. apply details_rt. rewrite Forall_forall in Ho. apply Ho, Ha. }
  exists (Transaction x i o' m). split; [|repeat split; assumption]. unfold transaction_of_json, transaction_to_json.
  cbn [tr_id tr_inputs tr_outputs tr_metadata].
  change (struct_fields _ true _) with (Some [Some (JStr x); Some (write_list pointer_to_json i); Some (write_list details_to_json o); Some m]).
  cbn iota. cbn [required defaulted read_string mbind option_bind]. rewrite Ei, Eo, read_json_value by exact Hm. reflexivity.
Qed.
Lemma bytes_rt s : read_bytes (write_bytes s) = Some s.
Proof.
  unfold read_bytes.
  assert (read_list read_u8 (write_bytes s) = Some (map N_of_ascii (text_of s))) as ->.
  { unfold write_bytes. generalize (text_of s) as l. intro l.
    destruct (write_read_list (fun c => JInt (Z.of_N (N_of_ascii c))) read_u8 (fun a b => b = N_of_ascii a) l) as (l' & E & F).
    { intros c _. exists (N_of_ascii c). split; [|reflexivity]. unfold read_u8. assert (N_of_ascii c < 256)%N as L by apply N_ascii_bounded.
      assert ((0 <=? Z.of_N (N_of_ascii c)) && (Z.of_N (N_of_ascii c) <? 256) = true) as ->; [|f_equal; lia].
      apply andb_true_iff. rewrite Z.leb_le, Z.ltb_lt. lia. }
    etransitivity; [exact E|]. f_equal. clear E. induction F as [|c n l l' H F IH]; [reflexivity|]. cbn [map]. rewrite H, IH. reflexivity. }
  cbn. f_equal. rewrite map_map.
  assert (map (fun x => ascii_of_N (N_of_ascii x)) (text_of s) = text_of s) as ->; [|apply of_text_of].
  generalize (text_of s) as l. intro l. induction l as [|c l IH]; [reflexivity|]. cbn [map]. rewrite IH, ascii_N_embedding. reflexivity.
Qed.
Lemma bevent_rt e : an_event e -> bevent_of_json (bevent_to_json e) = Some e.
Proof.
  destruct e as [i p n r s y h]. intros (Un & Us & Uh); cbn in Un, Us, Uh. unfold bevent_of_json, bevent_to_json.
  cbn [be_id be_parent be_number be_raw be_slot be_boundary be_epoch].
  change (struct_fields _ false _) with
    (Some [Some (JStr i); Some (JStr p); Some (write_u64 n); Some (write_bytes r); Some (write_u64 s); Some (JBool y); Some (write_u64 h)]).
  cbn iota. cbn [required read_string read_bool mbind option_bind].
  rewrite (write_read_number n Un), bytes_rt, (write_read_number s Us), (write_read_u64 h Uh). reflexivity.
Qed.
Lemma point_rt p : a_point p -> point_of_json (point_to_json p) = Some p.
Proof.
  destruct p as [|s h]; [reflexivity|]. intro U. cbn in U. unfold point_of_json, point_to_json. cbn [tagged].
  change (String.eqb "BlockHeader" "Origin") with false. change (String.eqb "BlockHeader" "BlockHeader") with true. cbn iota.
  change (struct_fields _ false _) with (Some [Some (write_u64 s); Some (JStr h)]). cbn iota. cbn [required read_string mbind option_bind].
  rewrite (write_read_number s U). reflexivity.
Qed.
Lemma config_rt c : config_of_json (config_to_json c) = Some c.
Proof. destruct c as [[p|] i r]; reflexivity. Qed.

(** ** Unknown, missing and repeated fields *)
Lemma known_in names k : known names k = true <-> k ∈ names.
Proof.
  unfold known. rewrite existsb_exists. split.
  - intros (x & Hx & E). apply String.eqb_eq in E. subst. apply elem_of_list_In, Hx.
  - intro H. exists k. split; [apply elem_of_list_In, H|apply String.eqb_refl].
Qed.
Lemma fields_strict names kvs k v : (k, v) ∈ kvs -> k ∉ names -> struct_fields names true (JObj kvs) = None.
Proof.
  intros H N. cbn [struct_fields]. assert (forallb (fun kv => known names (fst kv)) kvs = false) as ->; [|rewrite andb_false_r; reflexivity].
  apply not_true_is_false. intro E. rewrite forallb_forall in E. apply elem_of_list_In, E in H. apply N, known_in, H.
Qed.
Lemma find_ignore a k v b n : k <> n -> find_field (a ++ (k, v) :: b) n = find_field (a ++ b) n.
Proof.
  intro N. induction a as [|[k' v'] a IH]; cbn [app].
  - rewrite find_field_cons. apply String.eqb_neq in N. rewrite N. reflexivity.
  - rewrite !find_field_cons, IH. reflexivity.
Qed.
Lemma count_ignore a k v b n : k <> n -> count_field (a ++ (k, v) :: b) n = count_field (a ++ b) n.
Proof.
  intro N. induction a as [|[k' v'] a IH]; cbn [app].
  - rewrite count_field_cons. apply String.eqb_neq in N. rewrite N. reflexivity.
  - rewrite !count_field_cons, IH. reflexivity.
Qed.
Lemma fields_lenient names a k v b : k ∉ names -> struct_fields names false (JObj (a ++ (k, v) :: b)) = struct_fields names false (JObj (a ++ b)).
Proof.
  intro N. cbn [struct_fields negb orb]. rewrite !andb_true_r.
  assert (forallb (fun n => Nat.leb (count_field (a ++ (k, v) :: b) n) 1) names = forallb (fun n => Nat.leb (count_field (a ++ b) n) 1) names /\
          map (find_field (a ++ (k, v) :: b)) names = map (find_field (a ++ b)) names) as [-> ->]; [|reflexivity].
  induction names as [|n names IH]; [split; reflexivity|]. apply not_elem_of_cons in N as [Nn N]. destruct (IH N) as [E1 E2].
  cbn. rewrite E1, E2, find_ignore, count_ignore by exact Nn. split; reflexivity.
Qed.
Lemma fields_twice names deny a b c k v w : k ∈ names -> struct_fields names deny (JObj (a ++ (k, v) :: b ++ (k, w) :: c)) = None.
Proof.
  intro H. cbn [struct_fields].
  assert (forallb (fun n => Nat.leb (count_field (a ++ (k, v) :: b ++ (k, w) :: c) n) 1) names = false) as ->; [|reflexivity].
  apply not_true_is_false. intro E. rewrite forallb_forall in E. apply elem_of_list_In, E in H. apply Nat.leb_le in H.
  assert (forall a k v b, count_field (a ++ (k, v) :: b) k = S (count_field (a ++ b) k)) as C.
  { clear. intros a k v b. induction a as [|[k' v'] a IH]; cbn [app]; rewrite ?count_field_cons; [rewrite String.eqb_refl; reflexivity|]. rewrite IH. lia. }
  rewrite C in H. rewrite app_assoc, C in H. lia.
Qed.
Lemma fields_missing names deny kvs l i n : struct_fields names deny (JObj kvs) = Some l -> names !! i = Some n -> n ∉ map fst kvs -> l !! i = Some None.
Proof.
  cbn [struct_fields]. destruct (_ && _); [|discriminate]. intros [= <-] Hi Hn.
  change (map (find_field kvs) names) with (find_field kvs <$> names). rewrite list_lookup_fmap, Hi. cbn. f_equal.
  induction kvs as [|[k v] kvs IH]; [reflexivity|]. cbn in Hn. apply not_elem_of_cons in Hn as [N Hn]. rewrite find_field_cons.
  destruct (String.eqb_spec k n); [congruence|]. apply IH, Hn.
Qed.

(** ** Reading any document as a serde_json::Value *)
Lemma insert_forall (P : string * json -> Prop) k v m : P (k, v) -> Forall P m -> Forall P (insert_key k v m).
Proof.
  intros H F. induction F as [|[e w] m He F IH]; cbn [insert_key]; [repeat constructor; assumption|].
  destruct (String.compare k e); repeat constructor; assumption.
Qed.
Lemma insert_sorted k v m : StronglySorted (fun x y => String.compare (fst x) (fst y) = Lt) m ->
  StronglySorted (fun x y => String.compare (fst x) (fst y) = Lt) (insert_key k v m).
Proof.
  induction 1 as [|[e w] m S IH H]; cbn [insert_key]; [repeat constructor|].
  destruct (String.compare k e) eqn:C.
  - apply String.compare_eq_iff in C. subst. constructor; assumption.
  - constructor; [constructor; assumption|]. constructor; [exact C|]. eapply Forall_impl; [exact H|]. intros x Hx. cbn in *. eapply compare_trans; eassumption.
  - constructor; [exact IH|]. apply insert_forall; [apply compare_gt, C|exact H].
Qed.
Lemma collect_value l m : Forall (fun kv => a_value (snd kv)) l -> Forall (fun kv => a_value (snd kv)) m ->
  StronglySorted (fun x y => String.compare (fst x) (fst y) = Lt) m -> a_value (JObj (collect l m)).
Proof.
  intro F. revert m. induction F as [|[k v] l Hv F IH]; intros m Fm S; [constructor; assumption|].
  cbn. apply IH; [apply insert_forall; assumption|apply insert_sorted, S].
Qed.
Lemma read_json_a_value j : a_value (read_json j).
Proof.
  induction j as [| | | | |l IH|l IH] using json_nested_ind; try (constructor; fail).
  - cbn [read_json]. constructor. induction IH; cbn; constructor; assumption.
  - rewrite read_json_obj. apply collect_value; [|constructor|constructor].
    induction IH as [|[k v] l Hv IH IHl]; cbn; constructor; assumption.
Qed.
Lemma find_insert k v m n : find_field (insert_key k v m) n = if String.eqb k n then Some v else find_field m n.
Proof.
  induction m as [|[e w] m IH]; cbn [insert_key]; [rewrite find_field_cons; reflexivity|].
  destruct (String.compare k e) eqn:C; rewrite ?find_field_cons; try reflexivity.
  - apply String.compare_eq_iff in C. subst. destruct (String.eqb e n); reflexivity.
  - rewrite IH. destruct (String.eqb_spec k n) as [-> |]; [|reflexivity]. destruct (String.eqb_spec e n) as [-> |]; [|reflexivity].
    rewrite compare_refl in C. discriminate.
Qed.
Lemma collect_absent l m n : n ∉ map fst l -> find_field (collect l m) n = find_field m n.
Proof.
  revert m. induction l as [|[k v] l IH]; intros m H; [reflexivity|]. cbn in H. apply not_elem_of_cons in H as [N H].
  cbn. rewrite IH by exact H. rewrite find_insert. destruct (String.eqb_spec k n); [congruence|reflexivity].
Qed.
Lemma collect_last a k v b m : k ∉ map fst b -> find_field (collect (a ++ (k, v) :: b) m) k = Some v.
Proof.
  intro H. unfold collect. rewrite fold_left_app. cbn [fold_left fst snd]. change (find_field (collect b (insert_key k v (collect a m))) k = Some v).
  rewrite collect_absent by exact H. rewrite find_insert, String.eqb_refl. reflexivity.
Qed.
Lemma on_values_app f a b : on_values f (a ++ b) = on_values f a ++ on_values f b.
Proof. apply map_app. Qed.

