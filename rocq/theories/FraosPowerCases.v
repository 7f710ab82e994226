(** C64: histories in which a power failure does harm, and concrete cases for the theorems of FraosPowerProps.v. *)
From Coq Require Import Lia ZArith.
From stdpp Require Import numbers list.
From Verif Require Import FraosModel FraosSpec FraosPowerModel FraosPowerSpec FraosPowerProofs FraosPowerHist FraosPowerProps.

(** ** a check that files may be left by a power failure *)
Fixpoint list_eqb (a b : list N) : bool :=
  match a, b with [], [] => true | x :: a', y :: b' => if N.eqb x y then list_eqb a' b' else false | _, _ => false end.
Fixpoint any {A} (p : A -> bool) (l : list A) : bool := match l with [] => false | x :: r => if p x then true else any p r end.
Fixpoint every {A} (p : A -> bool) (l : list A) : bool := match l with [] => true | x :: r => if p x then every p r else false end.
Definition blk_ok (blk : nat) (f : file) (j : nat) (v : file) : bool :=
  let b := take blk (drop (j * blk) f) in list_eqb b (take (length b) (drop (j * blk) (set_len v (length f)))).
Definition survivesb (blk : nat) (vs : list file) (f : file) : bool :=
  if any (list_eqb f) vs then true else
  if any (fun v => length f =? length v) vs then every (fun j => any (blk_ok blk f j) vs) (seq 0 (S (length f / blk))) else false.
Fixpoint leftb (k : cfg) (dk : disk) (s : pstate) (h : list pop) : bool :=
  match h with
  | [] => true
  | o :: r =>
      if (match o with
          | PPower recs m df xf => let (dv, xv) := contents_at k dk s recs m in if survivesb 1 dv df then survivesb (dk_sector dk) xv xf else false
          | _ => true end)
      then match pop_apply k dk s o with Ok s' => leftb k dk s' r | _ => true end else false
  end.
Definition left_newb (k : cfg) (dk : disk) (h : list pop) : bool :=
  match db_new (Some []) (Some []) with Ok d => leftb k dk (PState d [[]] [[]]) h | _ => false end.

Lemma list_eqb_eq a b : list_eqb a b = true -> a = b.
Proof.
  revert b. induction a as [|x a IH]; intros [|y b] H; cbn in H; try discriminate; [reflexivity|].
  destruct (N.eqb_spec x y) as [->|]; [|discriminate]. f_equal. apply IH, H.
Qed.
Lemma any_spec {A} (p : A -> bool) l : any p l = true -> exists x, x ∈ l /\ p x = true.
Proof.
  induction l as [|x l IH]; cbn; [discriminate|]. destruct (p x) eqn:E; [exists x; split; [left|exact E]|].
  intro H. destruct (IH H) as (y & Hy & Hp). exists y. split; [right; exact Hy|exact Hp].
Qed.
Lemma every_spec {A} (p : A -> bool) l : every p l = true -> forall x, x ∈ l -> p x = true.
Proof.
  induction l as [|x l IH]; cbn; intros H y Hy; [inversion Hy|]. destruct (p x) eqn:E; [|discriminate].
  apply elem_of_cons in Hy as [->|Hy]; auto.
Qed.
Lemma survives_one blk vs v : v ∈ vs -> survives blk vs v.
Proof. intro H. split; [exists v; auto|]. intro j. exists v. split; [exact H|]. intros i b _ E. rewrite E. reflexivity. Qed.
Lemma survivesb_ok blk vs f : 0 < blk -> survivesb blk vs f = true -> survives blk vs f.
Proof.
  intros Hb H. unfold survivesb in H. destruct (any (list_eqb f) vs) eqn:E1.
  { apply any_spec in E1 as (v & Hv & E). apply list_eqb_eq in E as <-. apply survives_one, Hv. }
  destruct (any (fun v => length f =? length v) vs) eqn:E2; [|discriminate]. apply any_spec in E2 as (v & Hv & E). apply Nat.eqb_eq in E.
  split; [exists v; auto|]. intro j. destruct (decide (j < S (length f / blk))) as [Hj|Hj].
  - assert (G := every_spec _ _ H j ltac:(apply elem_of_list_In, in_seq; lia)). apply any_spec in G as (w & Hw & G). exists w. split; [exact Hw|].
    intros i b Hi Eb. apply list_eqb_eq in G. assert (Hdm := Nat.div_mod i blk ltac:(lia)). rewrite Hi in Hdm.
    assert (Hm := Nat.mod_upper_bound i blk ltac:(lia)). assert (Hlt := lookup_lt_Some _ _ _ Eb).
    assert (E3 : take blk (drop (j * blk) f) !! (i mod blk) = Some b).
    { rewrite lookup_take by lia. rewrite lookup_drop. replace (j * blk + i mod blk) with i by lia. exact Eb. }
    rewrite G in E3. apply lookup_take_Some in E3 as [E3 _]. rewrite lookup_drop in E3. replace (j * blk + i mod blk) with i in E3 by lia.
    rewrite set_len_default in E3 by exact Hlt. apply (inj Some) in E3. exact E3.
  - exists v. split; [exact Hv|]. intros i b Hi Eb. assert (Hlt := lookup_lt_Some _ _ _ Eb).
    assert (i / blk <= length f / blk) by (apply Nat.div_le_mono; lia). lia.
Qed.
Lemma leftb_ok k dk h : 0 < dk_sector dk -> forall s, leftb k dk s h = true -> along k dk (left_on_disk k dk) s h.
Proof.
  intro Hs. induction h as [|o h IH]; intros s H; [exact I|]. cbn [leftb along] in *.
  match type of H with (if ?b then _ else _) = _ => destruct b eqn:E; [|discriminate] end.
  split; [|destruct (pop_apply k dk s o); [apply IH, H|exact I..]].
  destruct o as [| | |recs m df xf]; try exact I. cbn [left_on_disk]. destruct (contents_at k dk s recs m) as [dv xv].
  destruct (survivesb 1 dv df) eqn:E1; [|discriminate]. cbn [fst snd]. split; apply survivesb_ok; auto.
Qed.
Lemma left_newb_ok k dk h : 0 < dk_sector dk -> left_newb k dk h = true -> along_new k dk (left_on_disk k dk) h.
Proof. unfold left_newb, along_new. intro Hs. destruct (db_new (Some []) (Some [])); [apply leftb_ok, Hs|discriminate..]. Qed.

(** ** harm done by power failures *)
Definition page_cfg : cfg := Cfg (N.to_nat 2048) 2.
Definition ones (n : nat) : list (list N) := map (fun i => [N.of_nat i]) (seq 1 n).
Definition tens (n : nat) : list (list N) := map (fun i => replicate 10 (N.of_nat i)) (seq 1 n).
Definition sector (j : nat) (f : file) : file := take 512 (drop (j * 512) f).
(** the batch [recs] is torn: the first sectors of the index file are old (false) or new (true), the data file is new *)
Definition torn (h : list pop) (recs : list (list N)) (keep : list bool) : pop :=
  match popen page_cfg real_disk h with
  | Ok s => let (dv, xv) := contents_at page_cfg real_disk s recs MIndex in
            let old := set_len (match xv with x :: _ => x | [] => [] end) (512 * length keep) in
            let new := List.last xv [] in
            PPower recs MIndex (List.last dv []) (concat (imap (fun j b => sector j (if b : bool then new else old)) keep))
  | _ => PReopen
  end.

Definition first_put : list pop := [PAppend [[1%N]]].
Definition torn_apart : pop := Eval vm_compute in torn first_put (ones 95) [true; false; true; false].
Definition torn_tail : pop := Eval vm_compute in torn first_put (ones 63) [false; true; false; false].

Definition data_left (o : pop) : file := match o with PPower _ _ df _ => df | _ => [] end.
Definition index_left (o : pop) : file := match o with PPower _ _ _ xf => xf | _ => [] end.

Local Ltac run := vm_compute; reflexivity.
Lemma real_sectors : sector_aligned real_disk.
Proof. repeat split; try reflexivity; apply Nat.ltb_lt; reflexivity. Qed.
(** the state a history leads to, with a check of it, without writing it out *)
Definition got (d : db) (i : N) (r : option (list N)) : bool :=
  match db_get d i, r with Ok (Some x), Some y => list_eqb x y | Ok None, None => true | _, _ => false end.
Lemma got_ok d i r : got d i r = true -> db_get d i = Ok r.
Proof. unfold got. destruct (db_get d i) as [[x|]| |], r as [y|]; try discriminate; [|reflexivity]. intro H. apply list_eqb_eq in H as ->. reflexivity. Qed.
Lemma popen_check k dk h (p : db -> bool) : match popen k dk h with Ok s => p (ps_db s) | _ => false end = true ->
  exists s, popen k dk h = Ok s /\ p (ps_db s) = true.
Proof. destruct (popen k dk h) as [s| |]; [eauto|discriminate..]. Qed.
Local Ltac possible := apply left_newb_ok; [apply real_sectors|run].

(** the reopened log may hold records that are empty, which no append accepts, before others of the same batch *)
Theorem C64_torn_batch_refuted : exists k h recs df xf s i j,
  entry_aligned k /\ phistory_fits k (h ++ [PPower recs MIndex df xf]) /\
  along_new k real_disk (left_on_disk k real_disk) (h ++ [PPower recs MIndex df xf]) /\
  along_new k real_disk (torn_free real_disk) h /\
  popen k real_disk (h ++ [PPower recs MIndex df xf]) = Ok s /\
  (i < j < N.of_nat (db_len (ps_db s)))%N /\ has_empty recs = false /\
  db_get (ps_db s) i = Ok (Some []) /\ exists r, r ∈ recs /\ db_get (ps_db s) j = Ok (Some r).
Proof.
  destruct (popen_check page_cfg real_disk (first_put ++ [torn_apart]) (fun d => (70 <? N.of_nat (db_len d))%N && (got d 40 (Some []) && got d 70 (Some [70%N])))) as (s & Es & Hs); [run|].
  apply andb_true_iff in Hs as [Hlen Hs]. apply andb_true_iff in Hs as [H1 H2]. apply got_ok in H1, H2. apply N.ltb_lt in Hlen.
  exists page_cfg, first_put, (ones 95), (data_left torn_apart), (index_left torn_apart), s, 40%N, 70%N.
  split; [reflexivity|]. split; [split; run|]. split; [possible|]. split.
  { unfold along_new, first_put. destruct (db_new (Some []) (Some [])) eqn:E; [|discriminate E..]. cbn [along]. split; [exact I|].
    destruct (pop_apply page_cfg real_disk _ _); exact I. }
  split; [exact Es|]. split; [split; [reflexivity|exact Hlen]|]. split; [run|]. split; [exact H1|]. exists [70%N]. split; [|exact H2].
  unfold ones. change [70%N] with ((fun i => [N.of_nat i]) 70). apply elem_of_list_fmap_1. apply elem_of_list_In, in_seq. lia.
Qed.

(** after a torn batch that left nothing visible, records are appended and acknowledged, and the next death of the
    process, between operations, loses some of them *)
Definition loses : list pop := first_put ++ [torn_tail; PAppend (tens 31)].
Theorem C64_acknowledged_lost_refuted : exists k h s s' i r,
  entry_aligned k /\ phistory_fits k h /\ along_new k real_disk (left_on_disk k real_disk) h /\
  popen k real_disk h = Ok s /\ db_get (ps_db s) i = Ok (Some r) /\
  popen k real_disk (h ++ [PKill [] (CrashData GStart)]) = Ok s' /\ db_get (ps_db s') i = Ok None.
Proof.
  destruct (popen_check page_cfg real_disk loses (fun d => got d 20 (Some (replicate 10 20%N)))) as (s & Es & Hs); [run|].
  destruct (popen_check page_cfg real_disk (loses ++ [PKill [] (CrashData GStart)]) (fun d => got d 20 None)) as (s' & Es' & Hs'); [run|].
  exists page_cfg, loses, s, s', 20%N, (replicate 10 20%N). apply got_ok in Hs, Hs'.
  split; [reflexivity|]. split; [split; run|]. split; [possible|]. split; [exact Es|]. split; [exact Hs|]. split; [exact Es'|exact Hs'].
Qed.

(** entries written by a process that died are readable, but not on the disk, and no later append puts them there *)
Definition two_pages : cfg := Cfg (N.to_nat 8192) 2.
Definition died : list pop := [PKill (ones 257) (CrashIndexWords (2 * 257))].
Definition died_left : file * file := Eval vm_compute in
  match popen two_pages real_disk (died ++ [PAppend [[7%N]]]) with
  | Ok s => (List.last (ps_data s) [], match ps_idx s with x :: _ => x | [] => [] end)
  | _ => ([], [])
  end.
Theorem C64_unsynchronised_refuted : exists k h df xf s s' i r,
  entry_aligned k /\ phistory_fits k (h ++ [PAppend [r]; PPower [] MIdle df xf]) /\
  along_new k real_disk (left_on_disk k real_disk) (h ++ [PAppend [r]; PPower [] MIdle df xf]) /\
  popen k real_disk (h ++ [PAppend [r]]) = Ok s /\ db_get (ps_db s) i = Ok (Some r) /\
  popen k real_disk (h ++ [PAppend [r]; PPower [] MIdle df xf]) = Ok s' /\ db_len (ps_db s') = 0.
Proof.
  destruct (popen_check two_pages real_disk (died ++ [PAppend [[7%N]]]) (fun d => got d 257 (Some [7%N]))) as (s & Es & Hs); [run|].
  destruct (popen_check two_pages real_disk (died ++ [PAppend [[7%N]]; PPower [] MIdle (fst died_left) (snd died_left)]) (fun d => db_len d =? 0)) as (s' & Es' & Hs'); [run|].
  exists two_pages, died, (fst died_left), (snd died_left), s, s', 257%N, [7%N]. apply got_ok in Hs. apply Nat.eqb_eq in Hs'.
  split; [reflexivity|]. split; [split; run|]. split; [possible|]. split; [exact Es|]. split; [exact Hs|]. split; [exact Es'|exact Hs'].
Qed.

(** ** cases for the theorems of FraosPowerProps.v *)
Fixpoint tornb (k : cfg) (dk : disk) (s : pstate) (h : list pop) : bool :=
  match h with
  | [] => true
  | o :: r =>
      if (match o with
          | PPower recs MIndex _ _ => (length recs =? 0) || (has_empty recs || ((16 * db_len (ps_db s)) / dk_sector dk =? (16 * (db_len (ps_db s) + length recs) - 1) / dk_sector dk))
          | PKill recs p => crash_kept recs p =? 0
          | _ => true end)
      then match pop_apply k dk s o with Ok s' => tornb k dk s' r | _ => true end else false
  end.
Definition torn_newb (k : cfg) (dk : disk) (h : list pop) : bool :=
  match db_new (Some []) (Some []) with Ok d => tornb k dk (PState d [[]] [[]]) h | _ => false end.
Lemma tornb_ok k dk h : forall s, tornb k dk s h = true -> along k dk (torn_free dk) s h.
Proof.
  induction h as [|o h IH]; intros s H; [exact I|]. cbn [tornb along] in *.
  match type of H with (if ?b then _ else _) = _ => destruct b eqn:E; [|discriminate] end.
  split; [|destruct (pop_apply k dk s o); [apply IH, H|exact I..]].
  destruct o as [| |recs p|recs m df xf]; try exact I; [apply Nat.eqb_eq, E|]. destruct m; try exact I. cbn [torn_free].
  apply orb_true_iff in E as [E|E]; [left; apply nil_length_inv, Nat.eqb_eq, E|right]. apply orb_true_iff in E as [E|E]; [left; exact E|right; apply Nat.eqb_eq, E].
Qed.
Lemma torn_newb_ok k dk h : torn_newb k dk h = true -> along_new k dk (torn_free dk) h.
Proof. unfold torn_newb, along_new. destruct (db_new (Some []) (Some [])); [apply tornb_ok|discriminate..]. Qed.

Definition tiny_cfg : cfg := Cfg 64 2.
(** the power fails in the course of a batch, leaving the last contents of the files, or the first ones *)
Definition fails (h : list pop) (recs : list (list N)) (m : moment) (new : bool) : list pop :=
  match popen tiny_cfg real_disk h with
  | Ok s => let (dv, xv) := contents_at tiny_cfg real_disk s recs m in
            let pick l := if new then List.last l [] else match l with x :: _ => x | [] => [] end in
            h ++ [PPower recs m (pick dv) (pick xv)]
  | _ => []
  end.
Definition ex_power1 : list pop := Eval vm_compute in fails [PAppend [[1; 2]; [3]]%N] [[4; 5; 6]]%N MIndex true.
Definition ex_power2 : list pop := Eval vm_compute in
  fails (ex_power1 ++ [PReopen; PKill [[9]]%N CrashIndexExtended]) [[7]; [8]]%N MData true.
Definition ex_power3 : list pop := Eval vm_compute in fails (ex_power2 ++ [PAppend [[10]]%N]) [] MDrop true.
Definition ex_power4 : list pop := Eval vm_compute in fails (ex_power3 ++ [PAppend [[]]]) [[11]]%N MIndex false.
Definition ex_read (d : db) : bool := got d 0 (Some [1; 2]%N) && (got d 1 (Some [3]%N) && (got d 2 (Some [4; 5; 6]%N) && (got d 3 (Some [10]%N) && got d 4 None))).

Example C64_history_case : exists s, entry_aligned tiny_cfg /\ sector_aligned real_disk /\ phistory_fits tiny_cfg ex_power4 /\
  along_new tiny_cfg real_disk (left_on_disk tiny_cfg real_disk) ex_power4 /\ along_new tiny_cfg real_disk (torn_free real_disk) ex_power4 /\
  popen tiny_cfg real_disk ex_power4 = Ok s /\ ex_read (ps_db s) = true.
Proof.
  destruct (popen_check tiny_cfg real_disk ex_power4 ex_read) as (s & Es & Hs); [run|]. exists s.
  split; [reflexivity|]. split; [apply real_sectors|]. split; [split; run|]. split; [possible|]. split; [apply torn_newb_ok; run|]. split; [exact Es|exact Hs].
Qed.
(** the same history in two parts: the batch that was written when the power failed stays *)
Example C64_acknowledged_stay_case : exists s1 s2 h2, ex_power4 = ex_power1 ++ h2 /\ length h2 = 7 /\ entry_aligned tiny_cfg /\ sector_aligned real_disk /\
  phistory_fits tiny_cfg (ex_power1 ++ h2) /\ along_new tiny_cfg real_disk (left_on_disk tiny_cfg real_disk) (ex_power1 ++ h2) /\
  along_new tiny_cfg real_disk (torn_free real_disk) (ex_power1 ++ h2) /\
  popen tiny_cfg real_disk ex_power1 = Ok s1 /\ popen tiny_cfg real_disk ex_power4 = Ok s2 /\
  db_get (ps_db s1) 2 = Ok (Some [4; 5; 6]%N) /\ db_get (ps_db s2) 2 = Ok (Some [4; 5; 6]%N).
Proof.
  destruct (popen_check tiny_cfg real_disk ex_power1 (fun d => got d 2 (Some [4; 5; 6]%N))) as (s1 & E1 & H1); [run|].
  destruct (popen_check tiny_cfg real_disk ex_power4 (fun d => got d 2 (Some [4; 5; 6]%N))) as (s2 & E2 & H2); [run|].
  apply got_ok in H1, H2. exists s1, s2, (drop 2 ex_power4).
  assert (E : ex_power4 = ex_power1 ++ drop 2 ex_power4) by reflexivity. rewrite <- E.
  split; [reflexivity|]. split; [reflexivity|]. split; [reflexivity|]. split; [apply real_sectors|]. split; [split; run|]. split; [possible|].
  split; [apply torn_newb_ok; run|]. split; [exact E1|]. split; [exact E2|]. split; [exact H1|exact H2].
Qed.
(** a batch over three sectors, of which the middle one is lost *)
Example C64_any_batch_case : exists recs df xf, recs = ones 95 /\ entry_aligned page_cfg /\ sector_aligned real_disk /\
  phistory_fits page_cfg (first_put ++ [PPower recs MIndex df xf]) /\
  along_new page_cfg real_disk (left_on_disk page_cfg real_disk) (first_put ++ [PPower recs MIndex df xf]) /\
  along_new page_cfg real_disk (torn_free real_disk) first_put.
Proof.
  exists (ones 95), (data_left torn_apart), (index_left torn_apart). split; [reflexivity|]. split; [reflexivity|]. split; [apply real_sectors|].
  split; [split; run|]. split; [possible|apply torn_newb_ok; run].
Qed.
(** a record cut short after its index entry was written *)
Example C64_single_records_case : exists s, entry_aligned tiny_cfg /\ sector_aligned real_disk /\ phistory_fits tiny_cfg ex_power1 /\
  along_new tiny_cfg real_disk (left_on_disk tiny_cfg real_disk) ex_power1 /\ Forall by_record ex_power1 /\
  popen tiny_cfg real_disk ex_power1 = Ok s /\ db_get (ps_db s) 2 = Ok (Some [4; 5; 6]%N).
Proof.
  destruct (popen_check tiny_cfg real_disk ex_power1 (fun d => got d 2 (Some [4; 5; 6]%N))) as (s1 & E1 & H1); [run|]. apply got_ok in H1. exists s1.
  split; [reflexivity|]. split; [apply real_sectors|]. split; [split; run|]. split; [possible|].
  split; [repeat constructor; apply Nat.leb_le; reflexivity|]. split; [exact E1|exact H1].
Qed.

Definition C64_all := (C64_history, C64_acknowledged_stay, C64_any_batch, C64_single_records,
  C64_torn_batch_refuted, C64_acknowledged_lost_refuted, C64_unsynchronised_refuted).
Print Assumptions C64_all.
