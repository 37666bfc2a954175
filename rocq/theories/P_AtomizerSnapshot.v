(** C23: replicas and snapshots of the atomizer. The vocabulary is in
    AtomizerSnapshotSpec.v. [meta_enc] and [meta_dec] stand for NuRaft's description of a
    snapshot, of which the code uses the log index. *)
From Coq Require Import NArith List Bool.
From stdpp Require Import base decidable list gmap.
From Verif Require Import Base CodecModel CodecProofs TxModel MsgModel AtomizerModel AtomizerSpec
  AtomizerSnapshotModel AtomizerSnapshotSpec AtomizerSnapshotProofs AtomizerSnapshotExamples.
Import ListNotations.
Open Scope N_scope.

(** What is written is what is read back. *)
Theorem C23_snapshot_round_trip m s q :
  dom c_snapshot (m, s) -> dec c_snapshot (Dst (enc c_snapshot (m, s) ++ q) true) = Ok (m, s) (Dst q true).
Proof. exact (l_rt _ lawful_snapshot (m, s) q). Qed.
Print Assumptions C23_snapshot_round_trip.

(** ... and every state a log leads to can be written. *)
Theorem C23_states_can_be_written d l m : log_fits d l -> dom c_buffer m ->
  exists s, log_state (sm_new d) l = ADone s /\ dom c_snapshot (m, s).
Proof. exact (log_state_defined d l m). Qed.
Print Assumptions C23_states_can_be_written.

(** Every replica is where a state machine that never stops was after as many entries,
    and has answered what that one answers; whatever snapshots were taken, installed or
    interrupted, and whoever crashed. *)
Theorem C23_replicas_agree meta_enc meta_dec :
  (forall i, i < two64 -> meta_dec (meta_enc i) = i) ->
  (forall i, i < two64 -> dom c_buffer (meta_enc i)) ->
  forall d n ls w,
  wrun meta_enc meta_dec d (world_new d n) ls = WOk w -> log_fits d (w_log w) ->
  (forall j r, w_reps w !! j = Some r -> rp_idx r <= len (w_log w) /\
     log_state (sm_new d) (take (N.to_nat (rp_idx r)) (w_log w)) = ADone (rp_sm r)) /\
  (forall j i x, (j, i, x) ∈ w_answers w -> log_answer d (w_log w) i x).
Proof. exact (replicas_agree meta_enc meta_dec). Qed.
Print Assumptions C23_replicas_agree.

(** Nothing that can happen makes a replica exit. *)
Theorem C23_replicas_survive meta_enc meta_dec :
  (forall i, i < two64 -> meta_dec (meta_enc i) = i) ->
  (forall i, i < two64 -> dom c_buffer (meta_enc i)) ->
  forall d n ls w l,
  wrun meta_enc meta_dec d (world_new d n) ls = WOk w -> log_fits d (w_log w) ->
  wstep meta_enc meta_dec d w l <> WExit.
Proof. exact (replicas_survive meta_enc meta_dec). Qed.
Print Assumptions C23_replicas_survive.

(** A crash while a snapshot is written: the replica comes back at the new snapshot if it
    was renamed, and otherwise no earlier than the latest there was. *)
Theorem C23_crash_in_snapshot meta_enc meta_dec :
  (forall i, i < two64 -> meta_dec (meta_enc i) = i) ->
  (forall i, i < two64 -> dom c_buffer (meta_enc i)) ->
  forall d n ls w j r p,
  wrun meta_enc meta_dec d (world_new d n) ls = WOk w -> log_fits d (w_log w) ->
  w_reps w !! j = Some r -> rp_idx r <> 0 -> p <> PFinished ->
  exists w' r', wstep meta_enc meta_dec d w (WSnapshot j p) = WOk w' /\ w_reps w' !! j = Some r' /\
    log_state (sm_new d) (take (N.to_nat (rp_idx r')) (w_log w)) = ADone (rp_sm r') /\
    (match p with
     | PRenamed _ => rp_idx r <= rp_idx r'
     | _ => forall p', p' ∈ sd_files (rp_dir r) -> fst p' <= rp_idx r'
     end).
Proof. exact (snapshot_crash meta_enc meta_dec). Qed.
Print Assumptions C23_crash_in_snapshot.

(** A snapshot that was taken or installed lasts: whatever happens next, a replica that
    crashes comes back no earlier than that snapshot. *)
Theorem C23_snapshots_last meta_enc meta_dec :
  (forall i, i < two64 -> meta_dec (meta_enc i) = i) ->
  (forall i, i < two64 -> dom c_buffer (meta_enc i)) ->
  forall d n ls w l j w1 r1 ls2 w2,
  wrun meta_enc meta_dec d (world_new d n) ls = WOk w ->
  l = WSnapshot j PFinished \/ (exists k i, l = WInstall j k i PFinished) ->
  wstep meta_enc meta_dec d w l = WOk w1 -> w_reps w1 !! j = Some r1 ->
  wrun meta_enc meta_dec d w1 ls2 = WOk w2 -> log_fits d (w_log w2) ->
  exists w3 r3, wstep meta_enc meta_dec d w2 (WCrash j) = WOk w3 /\ w_reps w3 !! j = Some r3 /\
    rp_idx r1 <= rp_idx r3 /\
    log_state (sm_new d) (take (N.to_nat (rp_idx r3)) (w_log w2)) = ADone (rp_sm r3).
Proof. exact (snapshots_last meta_enc meta_dec). Qed.
Print Assumptions C23_snapshots_last.

Example C23_case :
  ((forall i, i < two64 -> ex_meta_dec (ex_meta_enc i) = i) /\
   (forall i, i < two64 -> dom c_buffer (ex_meta_enc i))) /\
  (exists w, wrun ex_meta_enc ex_meta_dec 3 (world_new 3 3) wlabels1 = WOk w /\ log_fits 3 (w_log w)) /\
  wsum (wrun ex_meta_enc ex_meta_dec 3 (world_new 3 3) wlabels1) =
  Some ([4; 5; 5], [(0%nat, 1, None); (0%nat, 2, blk1); (0%nat, 3, err1); (0%nat, 3, err1);
                    (0%nat, 4, blk2); (1%nat, 4, blk2);
                    (2%nat, 1, None); (2%nat, 2, blk1); (2%nat, 3, err1); (2%nat, 4, blk2)]).
Proof. exact (conj ex_meta (conj wlabels1_fits wlabels1_run)). Qed.
