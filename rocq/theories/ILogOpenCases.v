(** Concrete cases meeting the hypotheses of the theorems of ILogOpenProps.v and FraosRoProps.v, named after them. *)
From Coq Require Import Lia ZArith String.
From stdpp Require Import numbers list gmap.
From Verif Require Import FraosModel FraosSpec FraosProps FraosRoModel FraosRoSpec FraosRoProps FraosDropProps ILogMapModel ILogMapSpec ILogMapProps JsonModel ILogOpenModel ILogOpenProps.
Local Close Scope Z_scope.
Local Open Scope nat_scope.
Local Ltac run := vm_compute; reflexivity.

Example C62_memory_case : lc_path (LogConfig None true false) = None /\ exists hd, snd (ilm_new (LogConfig None true false) true (Place PFile None false)) = IOk hd.
Proof. split; [reflexivity|]. eexists. run. Qed.
Lemma writes_open : exists st, ilm_open cbor small_cfg some_writes = IOk st.
Proof. eexists. run. Qed.
(** closing, opening for reading with the index, and for writing without it *)
Example C62_close_again_case : exists st p hd p' hd', ihistory_fits cbor small_cfg some_writes /\ ilm_open cbor small_cfg some_writes = IOk st /\
  ilm_new (some_config true true) true (closed_place st) = (p, IOk hd) /\ ilm_new (some_config false false) true (closed_place st) = (p', IOk hd').
Proof. eexists _, _, _, _, _. split; [split; run|]. split; [run|]. split; run. Qed.
Example C62_appends_case : exists st, ihistory_fits cbor small_cfg (some_writes ++ [IAppend (n64 9) (n64 5)]) /\ ilm_open cbor small_cfg some_writes = IOk st /\
  exists p hd hd', ilm_new (some_config true false) true (closed_place st) = (p, IOk hd) /\ handle_append cbor small_cfg hd (n64 9) (n64 5) = (hd', IOk tt) /\
    obs (ilm_get cbor (mh_map hd') (n64 9)) = Some (Some 5%N) /\ obs (ilm_last cbor (mh_map hd')) = Some (Some 5%N).
Proof.
  eexists. split; [split; vm_compute; reflexivity|]. split; [vm_compute; reflexivity|]. eexists _, _, _. repeat (split; [vm_compute; reflexivity|]). vm_compute. reflexivity.
Qed.
Example C62_without_index_case : lc_path (some_config false false) = Some "map"%string /\ lc_index (some_config false false) = false /\
  exists st, ilm_open cbor small_cfg some_writes = IOk st /\ exists hd, snd (ilm_new (some_config false false) true (closed_place st)) = IOk hd /\
  obs (ilm_last cbor (mh_map hd)) = Some (Some 4%N).
Proof. split; [reflexivity|]. split; [reflexivity|]. eexists. split; [run|]. eexists. split; [run|]. run. Qed.
(** a second user of the place while the first has it open: refused with the index, a reader without it is let in *)
Example C62_second_refused_case : exists st, ihistory_fits cbor small_cfg some_writes /\ ilm_open cbor small_cfg some_writes = IOk st /\
  snd (ilm_new (some_config true false) true (live_place st)) = IErr /\ exists hd, snd (ilm_new (some_config false true) true (live_place st)) = IOk hd.
Proof. eexists. split; [split; run|]. split; [run|]. split; [run|]. eexists. run. Qed.
Example C62_read_only_case : exists st, ilm_open cbor small_cfg some_writes = IOk st /\ exists p' hd,
  ilm_new (some_config false true) true (live_place st) = (p', IOk hd) /\ snd (handle_append cbor small_cfg hd (n64 1) (n64 2)) = IErr.
Proof. eexists. split; [run|]. eexists _, _. split; [run|]. run. Qed.
(** two appends since the map was opened, with room left in the mappings for a third *)
Example C62_second_cuts_case : let W := [(n64 7, n64 1); (n64 8, n64 2)] in
  let h := some_writes ++ IReopen :: map (fun p => IAppend p.1 p.2) W in
  ihistory_fits cbor small_cfg (some_writes ++ IReopen :: map (fun p => IAppend p.1 p.2) W ++ [IAppend (n64 9) (n64 3)]) /\ (exists st, ilm_open cbor small_cfg h = IOk st) /\
  length (concat (map (fun p : u64 * u64 => enc_val cbor p.2) W)) + length (enc_val cbor (n64 3)) < min_mmap small_cfg /\ lc_readonly (some_config false false) = false.
Proof. cbv zeta. split; [split; run|]. split; [eexists; run|]. split; [vm_compute; lia|reflexivity]. Qed.

Example C50_missing_case : exists e, snd (open_path false true (PDir (Some [1%N]) None)) = Err e.
Proof. eexists. run. Qed.
Example C50_makes_no_files_case : PDir (Some [1%N]) None <> PMissing /\ fst (open_path false true (PDir (Some [1%N]) None)) = PDir (Some [1%N]) None.
Proof. split; [discriminate|run]. Qed.
Example C50_no_place_case : open_path true false PMissing = (PMissing, Err IoError) /\ open_path true true PFile = (PFile, Err IoError).
Proof. split; reflexivity. Qed.
Example C50_moments_case : occurs a_history in_append /\ exists d, files_open FraosRoProps.small_cfg (take (m_done in_append) a_history) = Ok d /\ db_len d = 2.
Proof. split; [apply C50_case|]. eexists. split; [run|]. run. Qed.
