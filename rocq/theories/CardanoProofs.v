(** The invariant of the two tasks of CardanoModel, and the progress measure. *)
From Coq Require Import ZArith Lia Ascii.
From stdpp Require Import gmap strings list.
From Verif Require Import TimeModel UtilModel CardanoModel CardanoSpec.
Open Scope N_scope.

Lemma got_app a b : got (a ++ b) = got a ++ got b.
Proof. apply bind_app. Qed.
Lemma chains_app a b : chains (a ++ b) = chains a ++ chains b.
Proof. apply bind_app. Qed.

(** ** the node's answers *)
Lemma on_chain_spec c p : on_chain c p = true <-> p = NOrigin \/ exists b, b ∈ c /\ nb_point b = p.
Proof.
  destruct p as [|s h]; cbn; [tauto|]. rewrite bool_decide_eq_true, elem_of_list_fmap. split.
  - intros (b & -> & H). eauto.
  - intros [H|(b & H & <-)]; [discriminate|eauto].
Qed.
Lemma intersect_some c ps p : intersect c ps = Some p -> exists l r, ps = l ++ p :: r /\ on_chain c p = true /\ forall q, q ∈ l -> on_chain c q = false.
Proof.
  induction ps as [|q ps IH]; cbn; [discriminate|]. destruct (on_chain c q) eqn:O.
  - intro H. injection H as ->. exists [], ps. split; [reflexivity|]. split; [exact O|]. intros q H. inversion H.
  - intro H. destruct (IH H) as (l & r & -> & O' & N). exists (q :: l), r. split; [reflexivity|]. split; [exact O'|].
    intros q' H'. apply elem_of_cons in H' as [->|H']; auto.
Qed.
Lemma intersect_none c ps : intersect c ps = None <-> forall p, p ∈ ps -> on_chain c p = false.
Proof.
  induction ps as [|q ps IH]; cbn; [split; [intros _ p H; inversion H|reflexivity]|]. destruct (on_chain c q) eqn:O.
  - split; [discriminate|]. intro H. rewrite (H q ltac:(left)) in O. discriminate.
  - rewrite IH. split; [intros H p Hp; apply elem_of_cons in Hp as [->|Hp]; auto|intros H p Hp; apply H; right; exact Hp].
Qed.
Lemma insert_desc_in p l x : x ∈ insert_desc p l <-> x = p \/ x ∈ l.
Proof.
  induction l as [|q l IH]; cbn [insert_desc]; [rewrite elem_of_list_singleton; split; [auto|intros [H|H]; [exact H|inversion H]]|].
  destruct (npoint_slot q <=? npoint_slot p); rewrite ?elem_of_cons, ?IH, ?elem_of_cons; tauto.
Qed.
Lemma sort_desc_in l x : x ∈ sort_desc l <-> x ∈ l.
Proof. unfold sort_desc. induction l as [|p l IH]; cbn [foldr]; [reflexivity|]. rewrite insert_desc_in, IH, elem_of_cons. reflexivity. Qed.
Lemma sort_desc_sorted l : Sorted.StronglySorted (fun p q => npoint_slot q <= npoint_slot p) (sort_desc l).
Proof.
  unfold sort_desc. induction l as [|p l IH]; cbn [foldr]; [constructor|]. revert IH. generalize (foldr insert_desc [] l). clear.
  induction l as [|q l IH]; intro S0; cbn [insert_desc]; [repeat constructor|]. inversion S0 as [|? ? S1 S2]; subst.
  destruct (N.leb_spec (npoint_slot q) (npoint_slot p)) as [L|L].
  - constructor; [exact S0|]. constructor; [exact L|]. eapply Forall_impl; [exact S2|]. cbn. intros x Hx. lia.
  - constructor; [apply IH, S1|]. apply Forall_forall. intros x Hx. apply insert_desc_in in Hx as [->|Hx]; [lia|]. rewrite Forall_forall in S2. apply S2, Hx.
Qed.

Lemma intersect_best c ps p : intersect c (sort_desc ps) = Some p -> best c ps p.
Proof.
  intro H. apply intersect_some in H as (l & r & E & O & N). split; [|split; [exact O|]].
  - apply sort_desc_in. rewrite E. apply elem_of_app. right. left.
  - intros q Hq Oq. apply sort_desc_in in Hq. assert (St := sort_desc_sorted ps). rewrite E in Hq, St.
    apply elem_of_app in Hq as [Hq|Hq]; [rewrite (N q Hq) in Oq; discriminate|]. apply elem_of_cons in Hq as [->|Hq]; [lia|].
    clear - St Hq. induction l as [|x l IH]; cbn in St; inversion St as [|? ? S1 S2]; subst; [|auto]. rewrite Forall_forall in S2. apply S2, Hq.
Qed.

Lemma upto_spec c t l : upto c t = Some l -> exists post b l', c = l ++ post /\ l = l' ++ [b] /\ nb_point b = t.
Proof.
  revert l. induction c as [|b c IH]; intros l; cbn; [discriminate|]. destruct (decide (nb_point b = t)) as [E|E].
  - intro H. injection H as <-. exists c, b, []. auto.
  - destruct (upto c t) as [l0|] eqn:U; [|discriminate]. intro H. injection H as <-. destruct (IH _ eq_refl) as (post & b' & l' & -> & -> & E').
    exists post, b', (b :: l'). auto.
Qed.
Lemma range_spec c f t l : range c f t = Some l -> stretch c f t l.
Proof.
  induction c as [|b c IH]; [discriminate|]. cbn [range]. destruct (decide (nb_point b = f)) as [E|E].
  - intro H. destruct (upto_spec _ _ _ H) as (post & b' & l' & E1 & E2 & E3). destruct l as [|b0 l]; [destruct l'; discriminate|].
    exists [], b0, l, post. cbn [app] in E1. injection E1 as -> E1. split; [cbn; congruence|]. split; [reflexivity|]. split; [exact E|].
    rewrite E2. unfold tip_of. rewrite last_snoc. exact E3.
  - intro H. destruct (IH H) as (pre & b' & rest & post & -> & -> & E1 & E2). exists (b :: pre), b', rest, post. auto.
Qed.
Lemma upto_some c t : t ∈ map nb_point c -> is_Some (upto c t).
Proof.
  induction c as [|b c IH]; cbn; intro H; [inversion H|]. destruct (decide (nb_point b = t)) as [E|E]; [eauto|].
  apply elem_of_cons in H as [H|H]; [congruence|]. destruct (IH H) as [l ->]. eauto.
Qed.
Lemma range_some pre b rest t : t ∈ map nb_point (b :: rest) -> nb_point b ∉ map nb_point pre -> is_Some (range (pre ++ b :: rest) (nb_point b) t).
Proof.
  induction pre as [|x pre IH]; cbn [app range]; intros H N.
  - rewrite decide_True by reflexivity. apply upto_some. exact H.
  - rewrite decide_False; [apply IH; [exact H|]|]; cbn in N; rewrite elem_of_cons in N; [tauto|]. intro E. apply N. left. congruence.
Qed.

Lemma last_cons_default {A} (l : list A) x d : List.last l x = List.last (x :: l) d.
Proof. revert x d. induction l as [|y l IH]; intros x d; [reflexivity|]. cbn [List.last] in *. destruct l; [reflexivity|]. apply IH. Qed.

Section Proofs.
  Context (read_id : string -> option string) (decode : string -> option mblock) (cfg : config) (chk : bool).
  Notation event_of := (from_serialized_block decode cfg chk).
  Notation step := (step read_id decode cfg chk).
  Notation run := (run read_id decode cfg chk).
  Notation handler := (handler read_id decode cfg chk).
  Notation effective := (effective cfg).
  Notation served := (served read_id decode cfg chk).
  Notation ended := (ended read_id decode cfg chk).

  Lemma in_more (cs cs' : list (list nblock)) c : (exists x, cs' = cs ++ x) -> c ∈ cs -> c ∈ cs'.
  Proof. intros [x ->] H. apply elem_of_app. auto. Qed.
  Lemma after_more cs cs' c1 c2 : (exists x, cs' = cs ++ x) -> after cs c1 c2 -> after cs' c1 c2.
  Proof. intros [x ->] (a & b & -> & H). exists a, (b ++ x). rewrite <- app_assoc. split; [reflexivity|]. change (c1 :: b ++ x) with ((c1 :: b) ++ x). apply elem_of_app. auto. Qed.
  Lemma after_last cs c1 c2 : c1 ∈ cs -> last cs = Some c2 -> after cs c1 c2.
  Proof.
    intros H1 H2. apply elem_of_list_split in H1 as (a & b & ->). exists a, b. split; [reflexivity|]. rewrite last_app in H2.
    destruct (last (c1 :: b)) as [y|] eqn:E; [injection H2 as ->; apply last_Some_elem_of, E|]. apply last_None in E. discriminate.
  Qed.
  Lemma after_in cs c1 c2 : after cs c1 c2 -> c1 ∈ cs.
  Proof. intros (a & b & -> & _). apply elem_of_app. right. left. Qed.
  Lemma last_in (cs : list (list nblock)) c : last cs = Some c -> c ∈ cs.
  Proof. apply last_Some_elem_of. Qed.
  Local Hint Resolve in_more after_more after_last after_in last_in : core.

  Lemma served_more cs cs' f ms : (exists x, cs' = cs ++ x) -> served cs f ms -> served cs' f ms.
  Proof. intros H [|c1 ps p|c1 c2 ps p tips seg del ms0]; [constructor|eapply served_tip; eauto|apply (served_blocks _ _ _ _ cs' f c1 c2 ps p tips seg del ms0); eauto]. Qed.

  Lemma ended_more cs cs' f ms : (exists x, cs' = cs ++ x) -> ended cs f ms -> ended cs' f ms.
  Proof.
    intros H [|c1 ps|c1 ps|c1 c2 ps p tips|c1 c2 ps p tips seg ms0]; [apply ended_unreadable; assumption|apply (ended_unknown _ _ _ _ cs' f c1 ps); eauto|apply (ended_up_to_date _ _ _ _ cs' f c1 ps); eauto|
      apply (ended_rolled_back _ _ _ _ cs' f c1 c2 ps p tips); eauto|apply (ended_complete _ _ _ _ cs' f c1 c2 ps p tips seg ms0); eauto].
  Qed.

  (** the request whose answers the caller is reading: what was asked, the chains since, and what was got *)
  Definition view : Type := list nblock * option (list point * list (list nblock) * list msg).
  Definition look (v : view) (x : seen) : view :=
    match x with
    | Asked f => (fst v, Some (f, [fst v], []))
    | Got m => (fst v, match snd v with Some (f, cs, ms) => Some (f, cs, ms ++ [m]) | None => None end)
    | NodeHas c => (c, match snd v with Some (f, cs, ms) => Some (f, cs ++ [c], ms) | None => None end)
    | _ => v
    end.
  Definition looks (v : view) (tr : list seen) : view := foldl look v tr.

  Definition holds (p : hpc) : option nat :=
    match p with
    | HIdle | HExit | HDead => None
    | HConn _ ch | HAsk _ _ ch | HTip _ _ _ ch | HRange _ _ _ ch | HSkip _ ch | HStream _ ch | HSend _ _ ch => Some ch
    end.

  (** the handler is at p with this request, all being what was got or is in the channel *)
  Definition going (cs : list (list nblock)) (f : list point) (p : hpc) (all : list msg) : Prop :=
    match p with
    | HConn f' _ => f' = f /\ all = []
    | HAsk f' skip _ => (f', skip) = effective f /\ all = []
    | HTip q tip skip _ => skip = snd (effective f) /\ all = [] /\ exists c1 ps, c1 ∈ cs /\ points_to_node read_id (fst (effective f)) = Some ps /\
        best c1 ps q /\ tip_of c1 <> q /\ tip = tip_of c1
    | HRange q tip skip _ => skip = snd (effective f) /\ exists c1 ps, c1 ∈ cs /\ points_to_node read_id (fst (effective f)) = Some ps /\
        best c1 ps q /\ tip_of c1 <> q /\ tip = tip_of c1 /\ (all = [] \/ all = [MTip (tip_of c1)])
    | HSkip bs _ => snd (effective f) = true /\ exists c1 c2 ps q, after cs c1 c2 /\ points_to_node read_id (fst (effective f)) = Some ps /\
        best c1 ps q /\ tip_of c1 <> q /\ (all = [] \/ all = [MTip (tip_of c1)]) /\ stretch c2 q (tip_of c1) bs
    | HStream bs _ => exists c1 c2 ps q tips seg del ms, after cs c1 c2 /\ points_to_node read_id (fst (effective f)) = Some ps /\
        best c1 ps q /\ tip_of c1 <> q /\ (tips = [] \/ tips = [MTip (tip_of c1)]) /\ stretch c2 q (tip_of c1) seg /\
        (if snd (effective f) then tail seg else seg) = del ++ bs /\ Forall2 (fun b m => event_of (nb_raw b) = Some m) del ms /\ all = tips ++ ms
    | HSend m bs _ => exists c1 c2 ps q tips seg del ms, after cs c1 c2 /\ points_to_node read_id (fst (effective f)) = Some ps /\
        best c1 ps q /\ tip_of c1 <> q /\ (tips = [] \/ tips = [MTip (tip_of c1)]) /\ stretch c2 q (tip_of c1) seg /\
        (if snd (effective f) then tail seg else seg) = del ++ bs /\ Forall2 (fun b m => event_of (nb_raw b) = Some m) del (ms ++ [m]) /\ all = tips ++ ms
    | _ => False
    end.
  Lemma going_more cs cs' f p all : (exists x, cs' = cs ++ x) -> going cs f p all -> going cs' f p all.
  Proof.
    intros H. destruct p; cbn [going]; try tauto.
    - intros (? & ? & c1 & ps & ? & ?). split; [assumption|]. split; [assumption|]. exists c1, ps. eauto.
    - intros (? & c1 & ps & ? & ?). split; [assumption|]. exists c1, ps. eauto.
    - intros (? & c1 & c2 & ps & q & ? & ?). split; [assumption|]. exists c1, c2, ps, q. eauto.
    - intros (c1 & c2 & ps & q & tips & seg & del & ms & ? & R). exists c1, c2, ps, q, tips, seg, del, ms. eauto.
    - intros (c1 & c2 & ps & q & tips & seg & del & ms & ? & R). exists c1, c2, ps, q, tips, seg, del, ms. eauto.
  Qed.
  Lemma going_served cs f p all : going cs f p all -> served cs f all.
  Proof.
    destruct p; cbn [going]; try contradiction.
    - intros [_ ->]. constructor.
    - intros [_ ->]. constructor.
    - intros (_ & -> & _). constructor.
    - intros (_ & c1 & ps & H1 & H2 & H3 & H4 & -> & [-> | ->]); [constructor|eapply served_tip; eauto].
    - intros (_ & c1 & c2 & ps & q & H1 & H3 & H4 & H5 & [-> | ->] & _); [constructor|eapply served_tip; eauto].
    - intros (c1 & c2 & ps & q & tips & seg & del & ms & H1 & H3 & H4 & H5 & H6 & H7 & H8 & H9 & ->).
      apply (served_blocks _ _ _ _ cs f c1 c2 ps q tips seg del ms); auto. rewrite H8. apply prefix_app_r. reflexivity.
    - intros (c1 & c2 & ps & q & tips & seg & del & ms & H1 & H3 & H4 & H5 & H6 & H7 & H8 & H9 & ->).
      apply Forall2_app_inv_r in H9 as (d1 & d2 & D1 & D2 & ->).
      apply (served_blocks _ _ _ _ cs f c1 c2 ps q tips seg d1 ms); auto. rewrite H8, <- app_assoc. apply prefix_app_r. reflexivity.
  Qed.

  (** the blocks that the handler has yet to send *)
  Definition blocks_at (p : hpc) : list nblock := match p with HSkip bs _ | HStream bs _ | HSend _ bs _ => bs | _ => [] end.
  (** the block decodes *)
  Definition good (b : nblock) : Prop := is_Some (event_of (nb_raw b)).
  Definition clean (a : action) : Prop := match a with Handler ok _ => ok = true | Node c => Forall good c | _ => True end.

  Record inv (g : bool) (s : state) (v : view) : Prop := {
    i_node : s_node s = fst v;
    i_fresh_h : forall ch, holds (s_h s) = Some ch -> (ch < s_next s)%nat /\ c_tx (chan_of s ch) = true;
    i_fresh_r : forall f ch, (f, ch) ∈ s_requests s -> (ch < s_next s)%nat /\ c_tx (chan_of s ch) = true /\ holds (s_h s) <> Some ch /\ s_h s <> HDead /\ s_h s <> HExit;
    i_one : (length (s_requests s) <= 1)%nat;
    i_rx : forall ch, c_rx (chan_of s ch) = true -> s_current s = Some ch;
    i_current : forall ch, s_current s = Some ch -> (ch < s_next s)%nat /\ c_rx (chan_of s ch) = true;
    i_wait : s_c s = CWait -> s_current s <> None;
    i_send : forall f ch, s_c s = CSend f -> s_current s = Some ch -> c_queue (chan_of s ch) = [] /\ c_tx (chan_of s ch) = false;
    i_open : s_c s <> CIdle -> s_open s = true;
    i_exit : s_h s = HExit -> s_open s = false;
    i_good : g = true -> Forall good (s_node s) /\ Forall good (blocks_at (s_h s)) /\ s_h s <> HDead;
    i_seg : match snd v with
            | None => s_current s = None
            | Some (f, cs, ms) =>
                last cs = Some (fst v) /\ served cs f ms /\
                forall ch, s_current s = Some ch ->
                  let all := ms ++ c_queue (chan_of s ch) in
                  ((f, ch) ∈ s_requests s /\ all = []) \/
                  (holds (s_h s) = Some ch /\ going cs f (s_h s) all) \/
                  ((forall f', (f', ch) ∉ s_requests s) /\ holds (s_h s) <> Some ch /\ c_tx (chan_of s ch) = false /\ served cs f all /\ (g = true -> ended cs f all))
            end
  }.

  Lemma chan_set s ch x ch' : chan_of (set_chan s ch x) ch' = if decide (ch = ch') then x else chan_of s ch'.
  Proof. unfold chan_of, set_chan. cbn [s_chans]. destruct (decide (ch = ch')) as [<-|N]; [rewrite lookup_insert|rewrite lookup_insert_ne by exact N]; reflexivity. Qed.
  Lemma chan_set_h s p b ch : chan_of (set_h s p b) ch = chan_of s ch.
  Proof. reflexivity. Qed.
  Lemma chan_set_c s p ch : chan_of (set_c s p) ch = chan_of s ch.
  Proof. reflexivity. Qed.
  Lemma chan_close s ch ch' : chan_of (close_tx s ch) ch' = if decide (ch = ch') then Chan (c_queue (chan_of s ch)) false (c_rx (chan_of s ch)) else chan_of s ch'.
  Proof. unfold close_tx. apply chan_set. Qed.

  Lemma served_prefix cs f a b : served cs f (a ++ b) -> served cs f a.
  Proof.
    intro H. inversion H as [E|c1 ps p H1 H2 H3 H4 E|c1 c2 ps p tips seg del ms H1 H3 H4 H5 H6 H7 H8 H9 E].
    - symmetry in E. apply app_eq_nil in E as [-> _]. constructor.
    - destruct a as [|m a]; [constructor|]. cbn in E. injection E as E1 E2. symmetry in E2. apply app_eq_nil in E2 as [-> ->]. rewrite <- E1. eapply served_tip; eauto.
    - assert (C : (exists k, tips = a ++ k) \/ exists k, k <> [] /\ a = tips ++ k /\ ms = k ++ b).
      { clear - E. revert a E. induction tips as [|t tips IH]; intros a E; cbn in E.
        - destruct a as [|x a]; [left; exists []; reflexivity|]. right. exists (x :: a). split; [discriminate|]. auto.
        - destruct a as [|x a]; [left; eauto|]. cbn in E. injection E as -> E. destruct (IH a E) as [[k ->]|(k & K & -> & ->)]; [left; eauto|right; eauto]. }
      destruct C as [[k K]|(k & Kn & -> & ->)].
      + destruct H6 as [-> | ->].
        * symmetry in K. apply app_eq_nil in K as [-> _]. constructor.
        * destruct a as [|m a]; [constructor|]. cbn in K. injection K as <- K. symmetry in K. apply app_eq_nil in K as [-> _]. eapply served_tip; eauto.
      + apply Forall2_app_inv_r in H9 as (d1 & d2 & D1 & D2 & ->). apply (served_blocks _ _ _ _ cs f c1 c2 ps p tips seg d1 k); auto. etransitivity; [apply prefix_app_r; reflexivity|exact H8].
  Qed.

  (** a move of the handler with the request it holds, the channel being left as it is *)
  Lemma inv_move g s v p ch p' : inv g s v -> s_h s = p -> holds p = Some ch -> holds p' = Some ch ->
    (forall cs f all, last cs = Some (s_node s) -> going cs f p all -> going cs f p' all) -> (g = true -> Forall good (blocks_at p')) ->
    inv g (set_h s p' true) v.
  Proof.
    intros I Ep Hp Hp' G Gd. subst p. destruct I. constructor; cbn [set_h s_node s_c s_current s_open s_requests s_h s_handle s_chans s_next]; rewrite ?chan_set_h; auto.
    - intros ch' H. assert (ch' = ch) as -> by congruence. apply (i_fresh_h0 ch Hp).
    - intros f ch' H. destruct (i_fresh_r0 f ch' H) as (A & B & C & D & E). rewrite Hp' , <- Hp. split; [exact A|]. split; [exact B|]. split; [exact C|].
      split; intros ->; discriminate.
    - intros ->. discriminate.
    - intro Hg. destruct (i_good0 Hg) as (A & B & C). split; [exact A|]. split; [auto|]. intros ->. discriminate.
    - destruct (snd v) as [[[f cs] ms]|]; [|exact i_seg0]. destruct i_seg0 as (A & B & C). split; [exact A|]. split; [exact B|]. intros ch' H. cbn zeta.
      rewrite chan_set_h. destruct (C ch' H) as [X|[[X Y]|(X & Y & Z)]]; [auto| |].
      + right. left. assert (ch' = ch) as -> by congruence. split; [exact Hp'|]. apply G; [rewrite i_node0; exact A|exact Y].
      + right. right. split; [exact X|]. split; [congruence|exact Z].
  Qed.

  (** a move that sends a message *)
  Lemma inv_send g s v p ch p' m s1 : inv g s v -> s_h s = p -> holds p = Some ch -> holds p' = Some ch -> send s ch m = SSent s1 ->
    (forall cs f all, last cs = Some (s_node s) -> going cs f p all -> going cs f p' (all ++ [m])) -> (g = true -> Forall good (blocks_at p')) ->
    inv g (set_h s1 p' true) v.
  Proof.
    intros I Ep Hp Hp' Sd G Gd. subst p. unfold send in Sd. destruct (c_rx (chan_of s ch)) eqn:Rx; [|discriminate].
    destruct (_ <? _); [|discriminate]. injection Sd as <-. destruct I.
    assert (Cur := i_rx0 _ Rx). destruct (i_fresh_h0 ch Hp) as [Lt Tx].
    constructor; cbn [set_h set_chan s_node s_c s_current s_open s_requests s_h s_handle s_next]; auto.
    - intros ch' H. assert (ch' = ch) as -> by congruence. rewrite chan_set_h, chan_set, decide_True by reflexivity. auto.
    - intros f ch' H. destruct (i_fresh_r0 f ch' H) as (A & B & C & D & E). rewrite chan_set_h, chan_set, Hp', <- Hp. destruct (decide (ch = ch')) as [<-|N]; [contradiction|].
      split; [exact A|]. split; [exact B|]. split; [exact C|]. split; intros ->; discriminate.
    - intros ch' H. rewrite chan_set_h, chan_set in H. destruct (decide (ch = ch')) as [<-|N]; auto.
    - intros ch' H. rewrite chan_set_h, chan_set. destruct (decide (ch = ch')) as [<-|N]; cbn [c_rx]; auto.
    - intros f ch' H H'. assert (ch' = ch) as -> by congruence. destruct (i_send0 f ch H H'). congruence.
    - intros ->. discriminate.
    - intro Hg. destruct (i_good0 Hg) as (A & B & C). split; [exact A|]. split; [auto|]. intros ->. discriminate.
    - destruct (snd v) as [[[f cs] ms]|]; [|exact i_seg0]. destruct i_seg0 as (A & B & C). split; [exact A|]. split; [exact B|]. intros ch' H. cbn zeta.
      assert (ch' = ch) as -> by congruence. rewrite chan_set_h, chan_set, decide_True by reflexivity. cbn [c_queue]. rewrite app_assoc.
      destruct (C ch H) as [[X Y]|[[X Y]|(X & Y & Z)]]; [|right; left; split; [exact Hp'|]; apply G; [rewrite i_node0; exact A|exact Y]|contradiction].
      exfalso. destruct (i_fresh_r0 _ _ X) as (_ & _ & K & _). contradiction.
  Qed.

  (** the end of a request *)
  Lemma inv_finish g s v p ch ok : inv g s v -> s_h s = p -> holds p = Some ch ->
    (forall cs f all, last cs = Some (s_node s) -> going cs f p all -> g = true -> s_current s = Some ch -> ended cs f all) -> inv g (finish s ch ok) v.
  Proof.
    intros I Ep Hp G. subst p. destruct I. destruct (i_fresh_h0 ch Hp) as [Lt Tx]. unfold finish.
    constructor; cbn [set_h close_tx set_chan s_node s_c s_current s_open s_requests s_h s_handle s_next holds blocks_at]; auto; try discriminate.
    - intros f ch' H. destruct (i_fresh_r0 f ch' H) as (A & B & C & D & E). rewrite chan_set_h, chan_close. destruct (decide (ch = ch')) as [<-|N]; [contradiction|].
      split; [exact A|]. split; [exact B|]. split; [discriminate|]. split; discriminate.
    - intros ch' H. rewrite chan_set_h, chan_close in H. destruct (decide (ch = ch')) as [<-|N]; auto.
    - intros ch' H. rewrite chan_set_h, chan_close. destruct (decide (ch = ch')) as [<-|N]; cbn [c_rx]; auto.
    - intros f ch' H H'. rewrite chan_set_h, chan_close. destruct (i_send0 f ch' H H'). destruct (decide (ch = ch')) as [<-|N]; cbn [c_queue c_tx]; auto.
    - intro Hg. destruct (i_good0 Hg) as (A & B & C). split; [exact A|]. split; [constructor|discriminate].
    - destruct (snd v) as [[[f cs] ms]|]; [|exact i_seg0]. destruct i_seg0 as (A & B & C). split; [exact A|]. split; [exact B|]. intros ch' H. cbn zeta.
      rewrite chan_set_h, chan_close. destruct (C ch' H) as [[X Y]|[[X Y]|(X & Y & Z)]].
      + left. destruct (decide (ch = ch')) as [<-|N]; auto.
      + assert (ch' = ch) as -> by congruence. rewrite decide_True by reflexivity. right. right. cbn [c_queue c_tx].
        split; [intros f' H'; destruct (i_fresh_r0 _ _ H') as (_ & _ & K & _); contradiction|]. split; [discriminate|]. split; [reflexivity|].
        split; [eapply going_served, Y|]. intro Hg. apply G; auto. rewrite i_node0. exact A.
      + right. right. destruct (decide (ch = ch')) as [<-|N]; [contradiction|]. split; [exact X|]. split; [discriminate|]. exact Z.
  Qed.

  Lemma close_all_chan l s ch : (forall r, r ∈ l -> snd r <> ch) -> chan_of (foldl (fun s r => close_tx s (snd (A := list point) r)) s l) ch = chan_of s ch.
  Proof.
    revert s. induction l as [|r l IH]; intros s H; [reflexivity|]. cbn [foldl]. rewrite IH by (intros r' H'; apply H; right; exact H').
    rewrite chan_close, decide_False; [reflexivity|]. apply H. left.
  Qed.

  Lemma stretch_good c p t seg : stretch c p t seg -> Forall good c -> Forall good seg.
  Proof. intros (pre & b & rest & post & -> & _) H. apply Forall_app in H as [_ H]. apply Forall_app in H as [H _]. exact H. Qed.

  Lemma inv_handler g s v ok late s' : inv g s v -> (g = true -> ok = true) -> handler s ok late = Some s' -> inv g s' v.
  Proof.
    intros I Hg H. unfold CardanoModel.handler in H. destruct (s_h s) as [|from ch|from skip ch|q tip skip ch|q tip skip ch|bs ch|bs ch|m bs ch| |] eqn:Eh; try discriminate.
    - (* waiting *)
      destruct (s_requests s) as [|[from ch] rest] eqn:Er.
      + destruct (s_open s) eqn:Eo; [discriminate|]. injection H as <-. destruct I.
        constructor; cbn [set_h s_node s_c s_current s_open s_requests s_h s_handle s_chans s_next holds blocks_at]; rewrite ?chan_set_h, ?Er; auto; try discriminate.
        * intros f ch H. inversion H.
        * intro G. destruct (i_good0 G) as (A & B & C). split; [exact A|]. split; [constructor|discriminate].
        * destruct (snd v) as [[[f cs] ms]|]; [|exact i_seg0]. destruct i_seg0 as (A & B & C). split; [exact A|]. split; [exact B|]. intros ch H. cbn zeta. rewrite chan_set_h.
          destruct (C ch H) as [[X _]|[[X _]|(X & Y & Z)]]; [rewrite Er in X; inversion X|rewrite Eh in X; discriminate|].
          right. right. rewrite Er in X. split; [exact X|]. split; [discriminate|exact Z].
      + injection H as <-. destruct I. assert (Hr : (from, ch) ∈ s_requests s) by (rewrite Er; left). destruct (i_fresh_r0 _ _ Hr) as (A & B & C & D & E).
        assert (rest = []) as -> by (rewrite Er in i_one0; destruct rest; [reflexivity|cbn in i_one0; lia]).
        constructor; cbn [s_node s_c s_current s_open s_requests s_h s_handle s_chans s_next holds blocks_at]; auto; try discriminate.
        * intros ch' H. injection H as <-. auto.
        * intros f ch' H. inversion H.
        * intro G. destruct (i_good0 G) as (A' & B' & C'). split; [exact A'|]. split; [constructor|discriminate].
        * destruct (snd v) as [[[f cs] ms]|]; [|exact i_seg0]. destruct i_seg0 as (A' & B' & C'). split; [exact A'|]. split; [exact B'|]. intros ch' H. cbn zeta.
          destruct (C' ch' H) as [[X Y]|[[X Y]|(X & Y & Z)]].
          -- right. left. rewrite Er in X. apply elem_of_list_singleton in X. injection X as -> ->. split; [reflexivity|]. split; [reflexivity|exact Y].
          -- rewrite Eh in X. discriminate.
          -- right. right. split; [intros f' H'; inversion H'|]. split; [|exact Z]. intro X'. injection X' as <-. apply (X from). rewrite Er. left.
    - (* connecting *)
      destruct (s_handle s || ok) eqn:Eo; injection H as <-.
      + destruct (bool_decide_reflect (from = [BlockHeader 0 (cf_genesis_parent cfg)])) as [E|E].
        * apply (inv_move g s v (HConn from ch) ch); auto; [|intros _; constructor]. intros cs f all _ [-> ->]. split; [|reflexivity].
          unfold effective. rewrite bool_decide_eq_true_2 by exact E. reflexivity.
        * apply (inv_move g s v (HConn from ch) ch); auto; [|intros _; constructor]. intros cs f all _ [-> ->]. split; [|reflexivity].
          unfold effective. rewrite bool_decide_eq_false_2 by exact E. reflexivity.
      + apply (inv_finish g s v (HConn from ch) ch); auto. intros cs f all _ _ G. rewrite (Hg G), orb_true_r in Eo. discriminate.
    - (* asking *)
      destruct (points_to_node read_id from) as [ps|] eqn:Ep.
      + destruct ok.
        * destruct (intersect (s_node s) (sort_desc ps)) as [q|] eqn:Ei.
          -- apply intersect_best in Ei. destruct (decide (tip_of (s_node s) = q)) as [Et|Et]; injection H as <-.
             ++ apply (inv_finish g s v (HAsk from skip ch) ch); auto. intros cs f all Hc [G1 ->] _ _. apply (ended_up_to_date _ _ _ _ cs f (s_node s) ps); [apply last_in, Hc|rewrite <- G1; exact Ep|rewrite Et; exact Ei].
             ++ apply (inv_move g s v (HAsk from skip ch) ch); auto; [|intros _; constructor]. intros cs f all Hc [G1 ->]. cbn [going]. rewrite <- G1. cbn [fst snd].
                split; [reflexivity|]. split; [reflexivity|]. exists (s_node s), ps. auto.
          -- injection H as <-. apply (inv_finish g s v (HAsk from skip ch) ch); auto. intros cs f all Hc [G1 ->] _ _. apply (ended_unknown _ _ _ _ cs f (s_node s) ps); [apply last_in, Hc|rewrite <- G1; exact Ep|].
             intros p Hp. apply (proj1 (intersect_none _ _) Ei). apply sort_desc_in, Hp.
        * injection H as <-. apply (inv_finish g s v (HAsk from skip ch) ch); auto. intros cs f all _ _ G. specialize (Hg G). discriminate.
      + injection H as <-. apply (inv_finish g s v (HAsk from skip ch) ch); auto. intros cs f all Hc [G1 ->] _ _. apply ended_unreadable. rewrite <- G1. exact Ep.
    - (* tip *)
      assert (M : inv g (set_h s (HRange q tip skip ch) true) v).
      { apply (inv_move g s v (HTip q tip skip ch) ch); auto; [|intros _; constructor]. cbn [going]. intros cs f all Hc (E & -> & c1 & ps & R). split; [exact E|]. exists c1, ps. naive_solver. }
      destruct late; [|injection H as <-; exact M]. destruct (send s ch (MTip tip)) as [s1| |] eqn:Sd; [|injection H as <-; exact M|discriminate]. injection H as <-.
      apply (inv_send g s v (HTip q tip skip ch) ch _ (MTip tip)); auto; [|intros _; constructor]. cbn [going]. intros cs f all Hc (E & -> & c1 & ps & H1 & H2 & H3 & H4 & ->). split; [exact E|].
      exists c1, ps. auto 10.
    - (* range *)
      destruct ok; [|injection H as <-; apply (inv_finish g s v (HRange q tip skip ch) ch); auto; intros cs f all _ _ G; specialize (Hg G); discriminate].
      destruct (range (s_node s) q tip) as [bs|] eqn:Er.
      + assert (Hst := range_spec _ _ _ _ Er).
        assert (Gb : g = true -> Forall good bs) by (intro G; destruct (i_good _ _ _ I G) as (A & _); apply (stretch_good _ _ _ _ Hst A)). injection H as <-. destruct skip.
        * apply (inv_move g s v (HRange q tip true ch) ch); auto. cbn [going]. intros cs f all Hc (E & c1 & ps & H1 & H2 & H3 & H4 & -> & H6). split; [congruence|].
          exists c1, (s_node s), ps, q. auto 10.
        * apply (inv_move g s v (HRange q tip false ch) ch); auto. cbn [going]. intros cs f all Hc (E & c1 & ps & H1 & H2 & H3 & H4 & -> & H6).
          exists c1, (s_node s), ps, q, all, bs, [], []. rewrite <- E, app_nil_r. repeat (split; [solve [auto]|]). auto.
      + injection H as <-. apply (inv_finish g s v (HRange q tip skip ch) ch); auto. cbn [going]. intros cs f all Hc (E & c1 & ps & H1 & H2 & H3 & H4 & -> & H6) _ _.
        apply (ended_rolled_back _ _ _ _ cs f c1 (s_node s) ps q all); auto.
    - (* skipping *)
      destruct ok; injection H as <-; [|apply (inv_finish g s v (HSkip bs ch) ch); auto; intros cs f all _ _ G; specialize (Hg G); discriminate].
      apply (inv_move g s v (HSkip bs ch) ch); auto.
      + cbn [going]. intros cs f all Hc (E & c1 & c2 & ps & q & H1 & H3 & H4 & H5 & H6 & H7). exists c1, c2, ps, q, all, bs, [], []. rewrite E, app_nil_r. repeat (split; [solve [auto]|]). auto.
      + intro G. destruct (i_good _ _ _ I G) as (_ & A & _). rewrite Eh in A. cbn [blocks_at] in *. destruct bs; [constructor|]. inversion A; assumption.
    - (* next block *)
      destruct ok; [|injection H as <-; apply (inv_finish g s v (HStream bs ch) ch); auto; intros cs f all _ _ G; specialize (Hg G); discriminate].
      destruct bs as [|b bs].
      + injection H as <-. apply (inv_finish g s v (HStream [] ch) ch); auto. cbn [going].
        intros cs f all Hc (c1 & c2 & ps & q & tips & seg & del & ms & H1 & H3 & H4 & H5 & H6 & H7 & H8 & H9 & ->) _ _.
        rewrite app_nil_r in H8. apply (ended_complete _ _ _ _ cs f c1 c2 ps q tips seg ms); auto. rewrite H8. exact H9.
      + destruct (event_of (nb_raw b)) as [m|] eqn:Ev; injection H as <-.
        * apply (inv_move g s v (HStream (b :: bs) ch) ch); auto.
          -- cbn [going]. intros cs f all Hc (c1 & c2 & ps & q & tips & seg & del & ms & H1 & H3 & H4 & H5 & H6 & H7 & H8 & H9 & ->).
             exists c1, c2, ps, q, tips, seg, (del ++ [b]), ms. rewrite <- app_assoc. repeat (split; [solve [auto]|]). split; [|reflexivity]. apply Forall2_app; auto.
          -- intro G. destruct (i_good _ _ _ I G) as (_ & A & _). rewrite Eh in A. inversion A; assumption.
        * (* panic *)
          destruct g; [exfalso; destruct (i_good _ _ _ I eq_refl) as (_ & A & _); rewrite Eh in A; inversion A as [|? ? [m X] _]; congruence|].
          destruct I. rewrite Eh in *. destruct (i_fresh_h0 ch eq_refl) as [Lt Tx]. unfold die.
          assert (Ecl : forall r, r ∈ s_requests s -> snd r <> ch) by (intros [f ch'] Hr; destruct (i_fresh_r0 _ _ Hr) as (_ & _ & K & _); cbn in *; congruence).
          set (s1 := foldl _ _ _).
          assert (Es : s_node s1 = s_node s /\ s_c s1 = s_c s /\ s_current s1 = s_current s /\ s_open s1 = s_open s /\ s_next s1 = s_next s).
          { unfold s1. clear. generalize (s_requests s) as l. intro l. assert (K : forall s0, s_node (foldl (fun s r => close_tx s (snd (A := list point) r)) s0 l) = s_node s0 /\ s_c (foldl (fun s r => close_tx s (snd (A := list point) r)) s0 l) = s_c s0 /\
              s_current (foldl (fun s r => close_tx s (snd (A := list point) r)) s0 l) = s_current s0 /\ s_open (foldl (fun s r => close_tx s (snd (A := list point) r)) s0 l) = s_open s0 /\ s_next (foldl (fun s r => close_tx s (snd (A := list point) r)) s0 l) = s_next s0).
            { induction l as [|r l IH]; intro s0; cbn [foldl]; [auto|]. destruct (IH (close_tx s0 (snd r))) as (A & B & C & D & E). rewrite A, B, C, D, E. auto. }
            exact (K (close_tx s ch)). }
          destruct Es as (E1 & E2 & E3 & E4 & E5).
          assert (Ec : forall ch', c_queue (chan_of s1 ch') = c_queue (chan_of s ch') /\ c_rx (chan_of s1 ch') = c_rx (chan_of s ch') /\
              (c_tx (chan_of s1 ch') = true -> c_tx (chan_of s ch') = true /\ ch' <> ch /\ forall f, (f, ch') ∉ s_requests s)).
          { unfold s1. clear. intro ch'. assert (K0 : c_queue (chan_of (close_tx s ch) ch') = c_queue (chan_of s ch') /\ c_rx (chan_of (close_tx s ch) ch') = c_rx (chan_of s ch') /\
              (c_tx (chan_of (close_tx s ch) ch') = true -> c_tx (chan_of s ch') = true /\ ch' <> ch)).
            { rewrite chan_close. destruct (decide (ch = ch')) as [<-|N]; [cbn; split; [reflexivity|]; split; [reflexivity|discriminate]|]. auto. }
            destruct K0 as (K1 & K2 & K3). rewrite <- K1, <- K2. clear K1 K2.
            assert (K : forall l s0, c_queue (chan_of (foldl (fun s r => close_tx s (snd (A := list point) r)) s0 l) ch') = c_queue (chan_of s0 ch') /\ c_rx (chan_of (foldl (fun s r => close_tx s (snd (A := list point) r)) s0 l) ch') = c_rx (chan_of s0 ch') /\
              (c_tx (chan_of (foldl (fun s r => close_tx s (snd (A := list point) r)) s0 l) ch') = true -> c_tx (chan_of s0 ch') = true /\ forall f, (f, ch') ∉ l)).
            { induction l as [|r l IH]; intro s0; cbn [foldl]; [split; [reflexivity|]; split; [reflexivity|]; intro H; split; [exact H|]; intros f H'; inversion H'|].
              destruct (IH (close_tx s0 (snd r))) as (A & B & C). rewrite A, B. rewrite chan_close in *. destruct (decide (snd r = ch')) as [<-|N]; cbn in *.
              - split; [reflexivity|]. split; [reflexivity|]. intro H. destruct (C H). discriminate.
              - split; [reflexivity|]. split; [reflexivity|]. intro H. destruct (C H) as [C1 C2]. split; [exact C1|]. intros f H'. apply elem_of_cons in H' as [<-|H']; [apply N; reflexivity|apply (C2 f H')]. }
            change (foldl (λ (s0 : state) (r : list point * nat), close_tx s0 r.2) (close_tx s ch) (s_requests s)) with
              (foldl (fun s r => close_tx s (snd (A := list point) r)) (close_tx s ch) (s_requests s)).
            destruct (K (s_requests s) (close_tx s ch)) as (A & B & C). split; [exact A|]. split; [exact B|].
            intro H. destruct (C H) as [C1 C2]. destruct (K3 C1). auto. }
          assert (Ef : forall n c cur o r h hd nx ch', chan_of (St n c cur o r h hd (s_chans s1) nx) ch' = chan_of s1 ch') by reflexivity.
          constructor; cbn [s_node s_c s_current s_open s_requests s_h s_handle s_next holds blocks_at]; rewrite ?E1, ?E2, ?E3, ?E4, ?E5; auto; try discriminate.
          -- intros f ch' H. inversion H.
          -- intros ch' H. rewrite Ef in H. apply i_rx0. rewrite <- (proj1 (proj2 (Ec ch'))). exact H.
          -- intros ch' H. rewrite Ef, (proj1 (proj2 (Ec ch'))). auto.
          -- intros f ch' H H'. rewrite Ef, (proj1 (Ec ch')). destruct (i_send0 f ch' H H') as [A B]. split; [exact A|].
             destruct (c_tx (chan_of s1 ch')) eqn:X; [|reflexivity]. destruct (Ec ch') as (_ & _ & K). destruct (K X) as [K1 _]. congruence.
          -- destruct (snd v) as [[[f cs] ms]|]; [|exact i_seg0]. destruct i_seg0 as (A & B & C). split; [exact A|]. split; [exact B|]. intros ch' H. cbn zeta.
             rewrite Ef, (proj1 (Ec ch')). right. right. split; [intros f' X; inversion X|]. split; [discriminate|].
             assert (T : c_tx (chan_of s1 ch') = false).
             { destruct (c_tx (chan_of s1 ch')) eqn:X; [|reflexivity]. destruct (Ec ch') as (_ & _ & K). destruct (K X) as (K1 & K2 & K3).
               destruct (C ch' H) as [[Y _]|[[Y _]|(_ & _ & Y & _)]]; [destruct (K3 _ Y)|cbn in Y; congruence|congruence]. }
             split; [exact T|]. split; [|discriminate].
             destruct (C ch' H) as [[_ Y]|[[_ Y]|(_ & _ & _ & Y & _)]]; [rewrite Y; constructor|apply (going_served _ _ _ _ Y)|exact Y].
    - (* sending *)
      destruct (send s ch m) as [s1| |] eqn:Sd; [| |discriminate]; injection H as <-.
      + apply (inv_send g s v (HSend m bs ch) ch _ m); auto.
        * cbn [going]. intros cs f all Hc (c1 & c2 & ps & q & tips & seg & del & ms & H1 & H3 & H4 & H5 & H6 & H7 & H8 & H9 & ->).
          exists c1, c2, ps, q, tips, seg, del, (ms ++ [m]). rewrite <- app_assoc. repeat (split; [solve [auto]|]). reflexivity.
        * intro G. destruct (i_good _ _ _ I G) as (_ & A & _). rewrite Eh in A. exact A.
      + apply (inv_finish g s v (HSend m bs ch) ch); auto. intros cs f all _ _ _ Cur. exfalso. destruct (i_current _ _ _ I _ Cur) as [_ Rx]. unfold send in Sd. rewrite Rx in Sd.
        destruct (_ <? _); discriminate.
  Qed.

  Lemma inv_set_c g s v p : inv g s v -> (p = CWait -> s_current s <> None) -> (p <> CIdle -> s_open s = true) ->
    (forall f ch, p = CSend f -> s_current s = Some ch -> c_queue (chan_of s ch) = [] /\ c_tx (chan_of s ch) = false) -> inv g (set_c s p) v.
  Proof. intros [] H1 H2 H3. constructor; cbn [set_c s_node s_c s_current s_open s_requests s_h s_handle s_chans s_next]; auto. Qed.

  Lemma inv_got g s v ch m s1 : inv g s v -> s_current s = Some ch -> recv s ch = RMsg m s1 -> inv g (set_c s1 CIdle) (look v (Got m)).
  Proof.
    intros I Hc R. unfold recv in R. destruct (c_queue (chan_of s ch)) as [|m' q] eqn:Q; [destruct (c_tx _); discriminate|]. injection R as -> <-. destruct I.
    constructor; cbn [set_c set_chan s_node s_c s_current s_open s_requests s_h s_handle s_next look fst snd]; auto; try discriminate; try congruence.
    - intros ch' H. rewrite chan_set_c, chan_set. destruct (i_fresh_h0 ch' H). destruct (decide (ch = ch')) as [<-|N]; auto.
    - intros f ch' H. rewrite chan_set_c, chan_set. destruct (i_fresh_r0 f ch' H) as (A & B & C). destruct (decide (ch = ch')) as [<-|N]; auto.
    - intros ch' H. rewrite chan_set_c, chan_set in H. destruct (decide (ch = ch')) as [<-|N]; auto.
    - intros ch' H. rewrite chan_set_c, chan_set. destruct (decide (ch = ch')) as [<-|N]; cbn [c_rx]; auto.
    - destruct (snd v) as [[[f cs] ms]|]; [|congruence]. destruct i_seg0 as (A & B & C). split; [exact A|].
      assert (As : served cs f (ms ++ c_queue (chan_of s ch))).
      { destruct (C ch Hc) as [[_ Y]|[[_ Y]|(_ & _ & _ & Y & _)]]; [rewrite Y; constructor|apply (going_served _ _ _ _ Y)|exact Y]. }
      split; [rewrite Q in As; change (m :: q) with ([m] ++ q) in As; rewrite app_assoc in As; apply served_prefix in As; exact As|].
      intros ch' H. assert (ch' = ch) as -> by congruence. cbn zeta. rewrite chan_set_c, chan_set, decide_True by reflexivity. cbn [c_queue c_tx].
      rewrite <- app_assoc. cbn [app]. rewrite <- Q. apply (C ch H).
  Qed.

  Lemma inv_drop g s v : inv g s v -> s_c s = CIdle -> inv g (set_current (drop_rx s (s_current s)) None) v.
  Proof.
    intros I Hc. destruct I. destruct (s_current s) as [ch|] eqn:Ec; cbn [drop_rx].
    - assert (Cx : forall ch', chan_of (set_current (set_chan s ch (Chan [] (c_tx (chan_of s ch)) false)) None) ch' = if decide (ch = ch') then Chan [] (c_tx (chan_of s ch)) false else chan_of s ch').
      { intro ch'. apply chan_set. }
      constructor; cbn [set_current set_chan s_node s_c s_current s_open s_requests s_h s_handle s_next]; auto; try discriminate; try congruence.
      + intros ch' H. rewrite Cx. destruct (i_fresh_h0 ch' H). destruct (decide (ch = ch')) as [<-|N]; auto.
      + intros f ch' H. rewrite Cx. destruct (i_fresh_r0 f ch' H) as (A & B & C). destruct (decide (ch = ch')) as [<-|N]; auto.
      + intros ch' H. rewrite Cx in H. destruct (decide (ch = ch')) as [<-|N]; [discriminate|]. apply i_rx0 in H. congruence.
      + destruct (snd v) as [[[f cs] ms]|]; [|reflexivity]. destruct i_seg0 as (A & B & C). split; [exact A|]. split; [exact B|]. discriminate.
    - constructor; cbn [set_current s_node s_c s_current s_open s_requests s_h s_handle s_next]; auto; try congruence.
  Qed.

  Lemma inv_caller g s v s' o : inv g s v -> caller cfg s = Some (s', o) -> inv g s' (looks v o).
  Proof.
    intros I H. unfold caller in H. destruct (s_c s) as [|from|from|] eqn:Ec; [discriminate| | |].
    - destruct (s_current s) as [ch|] eqn:Eu.
      + destruct (recv s ch) as [m s1| |] eqn:R; [| |discriminate]; injection H as <- <-.
        * apply (inv_got g s v ch); assumption.
        * apply inv_set_c; [exact I|discriminate|intros _; apply (i_open _ _ _ I); congruence|]. intros f ch' _ H. assert (ch' = ch) as -> by congruence.
          unfold recv in R. destruct (c_queue (chan_of s ch)); [|discriminate]. destruct (c_tx (chan_of s ch)); [discriminate|auto].
      + injection H as <- <-. apply inv_set_c; [exact I|discriminate|intros _; apply (i_open _ _ _ I); congruence|congruence].
    - assert (D : inv g (set_c s CIdle) v) by (apply inv_set_c; [exact I|discriminate|congruence|discriminate]).
      assert (N : forall x, s_requests s = [] -> s_h s <> HExit -> s_h s <> HDead ->
        Some (let s0 := drop_rx s (s_current s) in St (s_node s0) CWait (Some (s_next s)) (s_open s0) [(match from with [] => [cf_from cfg] | _ => from end, s_next s)] (s_h s0) (s_handle s0)
                 (<[s_next s := Chan [] true true]> (s_chans s0)) (S (s_next s)), [Asked (match from with [] => [cf_from cfg] | _ => from end)]) = Some x -> inv g (fst x) (looks v (snd x))).
      { intros x Er N1 N2 Hx. injection Hx as <-. cbn [fst snd looks foldl look]. generalize (match from with [] => [cf_from cfg] | _ => from end). intro f0.
        assert (Ho : s_open s = true) by (apply (i_open _ _ _ I); congruence). destruct I.
        set (s0 := drop_rx s (s_current s)).
        assert (F : s_node s0 = s_node s /\ s_open s0 = s_open s /\ s_h s0 = s_h s) by (unfold s0; destruct (s_current s); auto). destruct F as (F1 & F2 & F3).
        assert (Cx : forall ch, c_tx (chan_of s0 ch) = c_tx (chan_of s ch) /\ c_rx (chan_of s0 ch) = false).
        { intro ch. unfold s0. destruct (s_current s) as [ch0|] eqn:Eu; cbn [drop_rx].
          - rewrite chan_set. destruct (decide (ch0 = ch)) as [<-|K]; [auto|]. split; [reflexivity|]. destruct (c_rx (chan_of s ch)) eqn:X; [|reflexivity]. apply i_rx0 in X. congruence.
          - split; [reflexivity|]. destruct (c_rx (chan_of s ch)) eqn:X; [|reflexivity]. apply i_rx0 in X. congruence. }
        assert (Cy : forall n c cur o r h hd nx ch, chan_of (St n c cur o r h hd (<[s_next s := Chan [] true true]> (s_chans s0)) nx) ch = if decide (s_next s = ch) then Chan [] true true else chan_of s0 ch).
        { intros. unfold chan_of. cbn [s_chans]. destruct (decide (s_next s = ch)) as [<-|K]; [rewrite lookup_insert|rewrite lookup_insert_ne by exact K]; reflexivity. }
        constructor; cbn [s_node s_c s_current s_open s_requests s_h s_handle s_next fst snd]; rewrite ?F1, ?F2, ?F3; auto; try discriminate.
        - intros ch H'. destruct (i_fresh_h0 ch H') as [A B]. rewrite Cy. destruct (decide (s_next s = ch)) as [<-|K]; [lia|]. split; [lia|]. rewrite (proj1 (Cx ch)). exact B.
        - intros f ch H'. apply elem_of_list_singleton in H'. injection H' as -> ->. rewrite Cy, decide_True by reflexivity. split; [lia|]. split; [reflexivity|].
          split; [|auto]. intro K. destruct (i_fresh_h0 _ K). lia.
        - intros ch H'. rewrite Cy in H'. destruct (decide (s_next s = ch)) as [<-|K]; [reflexivity|]. rewrite (proj2 (Cx ch)) in H'. discriminate.
        - intros ch H'. injection H' as <-. rewrite Cy, decide_True by reflexivity. split; [lia|reflexivity].
        - split; [reflexivity|]. split; [constructor|]. intros ch H'. injection H' as <-. cbn zeta. left. rewrite Cy, decide_True by reflexivity. split; [left|reflexivity]. }
      destruct (s_h s) eqn:Eh; try (injection H as <- <-; exact D);
        (destruct (s_requests s) as [|r rs] eqn:Er; [|discriminate]; cbn zeta in N; rewrite ?Eh in H, N; apply (N (s', o) eq_refl); [discriminate|discriminate|exact H]).
    - destruct (s_current s) as [ch|] eqn:Eu; [|discriminate]. destruct (recv s ch) as [m s1| |] eqn:R; [| |discriminate]; injection H as <- <-.
      + apply (inv_got g s v ch); assumption.
      + apply inv_set_c; [exact I|discriminate|congruence|discriminate].
  Qed.

  Lemma inv_step g s v a s' o : inv g s v -> (g = true -> clean a) -> step s a = Some (s', o) -> inv g s' (looks v o).
  Proof.
    intros I Hg H. destruct a as [from| | | | |ok late|c]; cbn [CardanoModel.step] in H.
    - destruct (s_c s) eqn:Ec; try discriminate. destruct (s_open s) eqn:Eo; [|discriminate]. injection H as <- <-. apply inv_set_c; [exact I|discriminate|auto|discriminate].
    - apply (inv_caller g s v s' o I H).
    - destruct (s_c s) eqn:Ec; [discriminate| | |]; injection H as <- <-; (apply inv_set_c; [exact I|discriminate|congruence|discriminate]).
    - destruct (s_c s) eqn:Ec; try discriminate. injection H as <- <-. apply inv_drop; assumption.
    - destruct (s_c s) eqn:Ec; try discriminate. injection H as <- <-. assert (J := inv_drop g s v I Ec). destruct J. cbn [looks foldl].
      constructor; cbn [s_node s_c s_current s_open s_requests s_h s_handle s_next] in *; auto; try congruence.
      intro K. exfalso. apply K. rewrite <- Ec. destruct (s_current s); reflexivity.
    - destruct (handler s ok late) as [s1|] eqn:Eh; [|discriminate]. injection H as <- <-. apply (inv_handler g s v ok late s1 I Hg Eh).
    - injection H as <- <-. destruct I. cbn [looks foldl look]. constructor; cbn [s_node s_c s_current s_open s_requests s_h s_handle s_chans s_next fst snd]; auto.
      + intro G. destruct (i_good0 G) as (A & B & C). split; [exact (Hg G)|auto].
      + destruct (snd v) as [[[f cs] ms]|]; [|exact i_seg0]. destruct i_seg0 as (A & B & C).
        assert (M : exists x, cs ++ [c] = cs ++ x) by eauto.
        split; [apply last_snoc|]. split; [apply (served_more _ _ _ _ M B)|]. intros ch H. destruct (C ch H) as [X|[[X Y]|(X & Y & Z & W & V)]].
        * left. exact X.
        * right. left. split; [exact X|]. apply (going_more _ _ _ _ _ M Y).
        * right. right. split; [exact X|]. split; [exact Y|]. split; [exact Z|]. split; [apply (served_more _ _ _ _ M W)|]. intro G. apply (ended_more _ _ _ _ M (V G)).
  Qed.

  Lemma inv_initial g c : (g = true -> Forall good c) -> inv g (initial c) (c, None).
  Proof.
    intro H. constructor; cbn [initial s_node s_c s_current s_open s_requests s_h s_handle s_chans s_next fst snd holds blocks_at]; auto; try discriminate; try congruence.
    - intros f ch X. inversion X.
  Qed.

  Lemma looks_app v a b : looks v (a ++ b) = looks (looks v a) b.
  Proof. unfold looks. apply foldl_app. Qed.
  Lemma inv_run g l : forall s v, inv g s v -> (g = true -> Forall clean l) -> inv g (fst (run s l)) (looks v (snd (run s l))).
  Proof.
    induction l as [|a l IH]; intros s v I Hg; cbn [CardanoModel.run]; [exact I|].
    assert (Hg' : g = true -> Forall clean l) by (intro G; specialize (Hg G); inversion Hg; assumption).
    destruct (step s a) as [[s' o]|] eqn:Es; [|apply IH; assumption].
    assert (J : inv g s' (looks v o)) by (apply (inv_step g s v a s' o I); [intro G; specialize (Hg G); inversion Hg; assumption|exact Es]).
    specialize (IH s' (looks v o) J Hg'). destruct (run s' l) as [s2 o2]. cbn [fst snd] in *. rewrite looks_app. exact IH.
  Qed.

  (** a step shows at most one thing, so every part of a trace from the start is the trace of a part of the schedule *)
  Lemma step_seen s a s' o : step s a = Some (s', o) -> o = [] \/ exists x, o = [x].
  Proof.
    destruct a; cbn [CardanoModel.step]; unfold caller; intro H.
    all: repeat match type of H with
                | context [match ?x with _ => _ end] => destruct x
                | context [if ?x then _ else _] => destruct x
                end; try discriminate; injection H as <- <-; eauto.
  Qed.
  Lemma run_prefix p l : forall s q, snd (run s l) = p ++ q -> exists l' l'', l = l' ++ l'' /\ snd (run s l') = p.
  Proof.
    revert p. induction l as [|a l IH]; intros p s q; cbn [CardanoModel.run].
    - cbn. intro H. symmetry in H. apply app_eq_nil in H as [-> ->]. exists [], []. auto.
    - destruct p as [|x p]; [intros _; exists [], (a :: l); auto|].
      destruct (step s a) as [[s' o]|] eqn:Es.
      + destruct (run s' l) as [s2 o2] eqn:Er. cbn [fst snd]. intro H. destruct (step_seen _ _ _ _ Es) as [->|[y ->]]; cbn [app] in H.
        * destruct (IH (x :: p) s' q) as (l' & l'' & -> & E); [rewrite Er; exact H|]. exists (a :: l'), l''. split; [reflexivity|]. cbn [CardanoModel.run]. rewrite Es. destruct (run s' l'). exact E.
        * injection H as -> H. destruct (IH p s' q) as (l' & l'' & -> & E); [rewrite Er; exact H|]. exists (a :: l'), l''. split; [reflexivity|]. cbn [CardanoModel.run]. rewrite Es.
          destruct (run s' l') as [s3 o3]. cbn [snd] in *. cbn [app]. congruence.
      + intro H. destruct (IH (x :: p) s q H) as (l' & l'' & -> & E). exists (a :: l'), l''. split; [reflexivity|]. cbn [CardanoModel.run]. rewrite Es. exact E.
  Qed.

  (** every thing seen is seen in a step of the schedule *)
  Lemma run_at x q l : forall p s, snd (run s l) = p ++ x :: q ->
    exists l1 a l2 s', l = l1 ++ a :: l2 /\ snd (run s l1) = p /\ step (fst (run s l1)) a = Some (s', [x]).
  Proof.
    induction l as [|a l IH]; intros p s; cbn [CardanoModel.run].
    - cbn. intro E. destruct p; discriminate.
    - destruct (step s a) as [[s' o]|] eqn:Es.
      + destruct (run s' l) as [s2 o2] eqn:Er. cbn [snd]. intro E. destruct (step_seen _ _ _ _ Es) as [->|[y ->]]; cbn [app] in E.
        * destruct (IH p s') as (l1 & a' & l2 & s'' & -> & T & X); [rewrite Er; exact E|]. exists (a :: l1), a', l2, s''. split; [reflexivity|]. cbn [CardanoModel.run]. rewrite Es.
          destruct (run s' l1). auto.
        * destruct p as [|y' p]; cbn [app] in E; injection E as -> E.
          -- exists [], a, l, s'. auto.
          -- destruct (IH p s') as (l1 & a' & l2 & s'' & -> & T & X); [rewrite Er; exact E|]. exists (a :: l1), a', l2, s''. split; [reflexivity|]. cbn [CardanoModel.run]. rewrite Es.
             destruct (run s' l1) as [s3 o3]. cbn [fst snd app] in *. split; [congruence|exact X].
      + intro E. destruct (IH p s E) as (l1 & a' & l2 & s'' & -> & T & X). exists (a :: l1), a', l2, s''. split; [reflexivity|]. cbn [CardanoModel.run]. rewrite Es. auto.
  Qed.

  (** the view of a trace *)
  Lemma looks_quiet t : forall c f cs ms, Forall not_asked t -> looks (c, Some (f, cs, ms)) t = (List.last (chains t) c, Some (f, cs ++ chains t, ms ++ got t)).
  Proof.
    induction t as [|x t IH]; intros c f cs ms H; [cbn; rewrite !app_nil_r; reflexivity|]. apply Forall_cons in H as [H1 H2].
    change (looks (c, Some (f, cs, ms)) (x :: t)) with (looks (look (c, Some (f, cs, ms)) x) t).
    assert (Gx : got (x :: t) = got_of x ++ got t) by reflexivity. assert (Cx : chains (x :: t) = chain_of x ++ chains t) by reflexivity. rewrite Gx, Cx.
    destruct x; cbn [look fst snd got_of chain_of app]; try contradiction; rewrite IH by exact H2; rewrite <- ?app_assoc; try reflexivity.
    f_equal. apply last_cons_default.
  Qed.
  Lemma looks_node t : forall v, fst (looks v t) = List.last (chains t) (fst v).
  Proof.
    induction t as [|x t IH]; intro v; [reflexivity|]. change (looks v (x :: t)) with (looks (look v x) t). rewrite IH.
    assert (Cx : chains (x :: t) = chain_of x ++ chains t) by reflexivity. rewrite Cx. destruct x; cbn [look fst chain_of app]; try reflexivity.
    apply last_cons_default.
  Qed.
  Lemma looks_none t : forall c, Forall not_asked t -> snd (looks (c, None) t) = None.
  Proof.
    induction t as [|x t IH]; intros c H; [reflexivity|]. apply Forall_cons in H as [H1 H2]. change (looks (c, None) (x :: t)) with (looks (look (c, None) x) t).
    destruct x; cbn [look fst snd]; try contradiction; apply IH, H2.
  Qed.
End Proofs.
