(** C68: concrete cases for the theorems of IMapPowerProps.v, and a history in which a power failure makes the map
    answer one key with the value of another. *)
From Coq Require Import Lia ZArith.
From stdpp Require Import numbers list gmap.
From Verif Require Import FraosModel FraosSpec FraosPowerModel FraosPowerSpec FraosPowerCases.
From Verif Require Import ILogMapModel ILogMapSpec ILogMapProps ILogMapCases IMapPowerModel IMapPowerSpec IMapPowerProps.

Notation mops := (list (mop (K := u64) (V := u64))).
(** what the disk may hold when the power fails now: the newest or the oldest contents of the files *)
Definition pick (new : bool) (l : list file) : file := if new then List.last l [] else match l with x :: _ => x | [] => [] end.
Definition fails_in (k : cfg) (h : mops) (key v : u64) (m : moment) (new : bool) (lost : nat) : mops :=
  match popen k real_disk (log_history cbor h) with
  | Ok s => let (dv, xv) := contents_at k real_disk s [enc_val cbor v] m in h ++ [QPower key v m (pick new dv) (pick new xv) lost]
  | _ => []
  end.
Definition fails_between (k : cfg) (h : mops) (key v : u64) (new : bool) (lost : nat) : mops :=
  match popen k real_disk (log_history cbor h ++ [PAppend [enc_val cbor v]]) with
  | Ok s => let (dv, xv) := contents_at k real_disk s [] MIdle in h ++ [QPowerBetween key v (pick new dv) (pick new xv) lost]
  | _ => []
  end.

(** a map of four keys: the power fails while key 3 is written, whose value is then in the log without its key, and
    sled has lost the insert of key 2; later it fails between the two halves of the append of key 5 *)
Definition mh1 : mops := Eval vm_compute in fails_in tiny_cfg [QAppend (n64 1) (n64 10); QAppend (n64 2) (n64 20)] (n64 3) (n64 30) MIndex true 1.
Definition mh2 : mops := Eval vm_compute in
  fails_between tiny_cfg (mh1 ++ [QAppend (n64 4) (n64 40); QReopen; QKill (n64 9) (n64 90) CrashIndexExtended 0]) (n64 5) (n64 50) true 0.
Definition mh3 : mops := Eval vm_compute in fails_in tiny_cfg (mh2 ++ [QAppend (n64 1) (n64 11)]) (n64 6) (n64 60) MData false 0.

Local Ltac run := vm_compute; reflexivity.
Definition same (r : ires (option u64)) (o : option N) : bool :=
  match r, o with IOk (Some x), Some y => N.eqb (proj1_sig x) y | IOk None, None => true | _, _ => false end.
Definition answers (k : cfg) (dk : disk) (h : mops) (l : list (N * option N)) : bool :=
  match mopen cbor k dk h with IOk s => forallb (fun p => same (ilm_get cbor (m_map s) (n64 p.1)) p.2) l | _ => false end.
Lemma same_ok r y : same r (Some y) = true -> exists x, r = IOk (Some x) /\ proj1_sig x = y.
Proof. destruct r as [[x|]| |]; cbn [same]; try discriminate. intro H. apply N.eqb_eq in H. eauto. Qed.
Definition values (k : cfg) (dk : disk) (h : mops) : list N :=
  match mopen cbor k dk h with IOk s => omap (fun r => match r with IOk x => Some (proj1_sig (x : u64)) | _ => None end) (fst (ilm_iter cbor 100 (m_map s))) | _ => [] end.
Lemma possible_check k h : phistory_fits k (log_history cbor h) -> left_newb k real_disk (log_history cbor h) = true -> possible cbor k real_disk h.
Proof. intros F L. split; [exact F|]. apply left_newb_ok; [apply real_sectors|exact L]. Qed.
Lemma mh3_ok : codec_ok cbor /\ entry_aligned tiny_cfg /\ sector_aligned real_disk /\ possible cbor tiny_cfg real_disk mh3 /\ Forall (nothing_found cbor) mh3.
Proof.
  split; [exact cbor_ok|]. split; [reflexivity|]. split; [apply real_sectors|]. split; [apply possible_check; [split; run|run]|].
  repeat constructor.
Qed.
Example C68_history_case : codec_ok cbor /\ entry_aligned tiny_cfg /\ sector_aligned real_disk /\ possible cbor tiny_cfg real_disk mh3 /\
  Forall (nothing_found cbor) mh3 /\ length mh3 = 9.
Proof. destruct mh3_ok as (A & B & C & D & E). repeat (split; [assumption|]). reflexivity. Qed.
Example C68_never_wrong_case : possible cbor tiny_cfg real_disk mh3 /\ Forall (nothing_found cbor) mh3 /\
  answers tiny_cfg real_disk mh3 [(1, Some 11); (2, None); (3, None); (4, Some 40); (5, None); (6, None); (9, None)]%N = true.
Proof. destruct mh3_ok as (_ & _ & _ & D & E). split; [exact D|]. split; [exact E|]. run. Qed.
Example C68_nothing_lost_case : possible cbor tiny_cfg real_disk mh3 /\ Forall (nothing_found cbor) mh3 /\
  values tiny_cfg real_disk mh3 = [10; 20; 30; 40; 50; 11]%N /\ length (completed mh3) = 4 /\ length (begun mh3) = 7.
Proof. destruct mh3_ok as (_ & _ & _ & D & E). split; [exact D|]. split; [exact E|]. split; [run|]. split; reflexivity. Qed.
(** the same beginning, without the loss in sled *)
Definition mh4 : mops := Eval vm_compute in fails_in tiny_cfg [QAppend (n64 1) (n64 10); QAppend (n64 2) (n64 20)] (n64 1) (n64 30) MIndex true 0.
Example C68_keys_kept_case : codec_ok cbor /\ entry_aligned tiny_cfg /\ sector_aligned real_disk /\ possible cbor tiny_cfg real_disk mh4 /\
  Forall (nothing_found cbor) mh4 /\ Forall keys_kept mh4 /\ answers tiny_cfg real_disk mh4 [(1, Some 10); (2, Some 20)]%N = true.
Proof.
  split; [exact cbor_ok|]. split; [reflexivity|]. split; [apply real_sectors|]. split; [apply possible_check; [split; run|run]|].
  split; [repeat constructor|]. split; [repeat constructor|]. run.
Qed.

(** ** a wrong answer.  A process dies when its index entry is written and not yet synchronised; the entry is found
    when the map is opened again.  The next append maps the file behind it, and synchronises only that.  The power
    failure loses the entry, and with it the sequence number of the acknowledged append of key 500, which sled
    still knows; two appends later that number belongs to another value.  The disk of this witness has pages of
    64 bytes, so that four entries fill one; with pages of 4096 bytes it takes 256. *)
Definition small_disk : disk := Disk 64 64.
Definition pages_cfg : cfg := Cfg 128 2.
Definition died_found : mops :=
  [QAppend (n64 1) (n64 1); QAppend (n64 2) (n64 2); QAppend (n64 3) (n64 3); QKill (n64 4) (n64 4) (CrashIndexWords 2) 0; QAppend (n64 500) (n64 5)].
Definition found_left : file * file := Eval vm_compute in
  match popen pages_cfg small_disk (log_history cbor died_found) with Ok s => (pick true (ps_data s), pick false (ps_idx s)) | _ => ([], []) end.
Definition mix_up : mops :=
  died_found ++ [QPower (n64 0) (n64 0) MIdle (fst found_left) (snd found_left) 0; QAppend (n64 600) (n64 6); QAppend (n64 700) (n64 7)].
Lemma n64_pairs (l : list (N * N)) a x : (a < 2 ^ 64)%N -> Forall (fun p => (p.1 < 2 ^ 64)%N) l ->
  (n64 a, x) ∈ map (fun p => (n64 p.1, n64 p.2)) l -> exists b, (a, b) ∈ l /\ x = n64 b.
Proof.
  intros Ha Hl Hx. apply elem_of_list_fmap in Hx as ([a' b] & E & Hi). rewrite Forall_forall in Hl. specialize (Hl _ Hi). cbn [fst snd] in *.
  apply pair_equal_spec in E as [E ->]. apply (f_equal (@proj1_sig _ _)) in E. rewrite !n64_val in E by assumption. subst a'. eauto.
Qed.
Theorem C68_died_before_refuted : exists k dk (h : mops) s key v v',
  codec_ok cbor /\ entry_aligned k /\ sector_aligned dk /\ possible cbor k dk h /\ Forall keys_kept h /\
  mopen cbor k dk h = IOk s /\ (key, v) ∈ completed h /\ (forall x, (key, x) ∈ completed h -> x = v) /\
  ilm_get cbor (m_map s) key = IOk (Some v') /\ v' <> v.
Proof.
  assert (Ho : answers pages_cfg small_disk mix_up [] = true) by run. unfold answers in Ho.
  destruct (mopen cbor pages_cfg small_disk mix_up) as [s| |] eqn:Es; [|discriminate Ho..]. clear Ho.
  exists pages_cfg, small_disk, mix_up, s, (n64 500), (n64 5), (n64 7).
  split; [exact cbor_ok|]. split; [reflexivity|]. split; [repeat split; apply Nat.ltb_lt; reflexivity|].
  split; [split; [split; run|apply left_newb_ok; [apply Nat.ltb_lt; reflexivity|run]]|].
  split; [repeat constructor|]. split; [exact Es|].
  assert (Hcl : completed mix_up = [(n64 1, n64 1); (n64 2, n64 2); (n64 3, n64 3); (n64 500, n64 5); (n64 600, n64 6); (n64 700, n64 7)]) by reflexivity.
  rewrite Hcl. split; [do 3 right; left|]. split.
  - intros x Hx. apply (n64_pairs [(1, 1); (2, 2); (3, 3); (500, 5); (600, 6); (700, 7)]%N) in Hx as (b & Hb & ->); [|reflexivity|repeat constructor].
    f_equal. repeat (apply elem_of_cons in Hb as [Hb|Hb]; [first [discriminate Hb|injection Hb as ->; reflexivity]|]). inversion Hb.
  - split; [|apply n64_neq; [reflexivity|reflexivity|discriminate]].
    assert (G : answers pages_cfg small_disk mix_up [(500, Some 7)]%N = true) by run.
    unfold answers in G. rewrite Es in G. cbn [forallb fst snd] in G. rewrite andb_true_r in G.
    apply same_ok in G as (x & -> & Hx). do 2 f_equal. apply u64_eq. rewrite Hx. symmetry. apply n64_val. reflexivity.
Qed.

Definition all_IMapPower := (@C68_history, @C68_never_wrong, @C68_nothing_lost, @C68_keys_kept, C68_died_before_refuted).
Print Assumptions all_IMapPower.
