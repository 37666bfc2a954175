(** Concrete runs of the connection manager (C72). *)
From stdpp Require Import base option list.
From Coq Require Import NArith Lia.
From Verif Require Import Base DispatchModel DispatchSpec.
Open Scope N_scope.

(** One handler thread finds nothing to do and is about to sleep; close() runs to its end;
    the thread sleeps. *)
Definition hanging : list gop :=
  [GHandler 0 None; GHandler 0 None; GClose; GClose; GClose; GClose; GHandler 0 None].

Lemma hanging_case : exists s, g_run (manager_init 1) hanging = Some s /\ g_closing s = 4%nat /\
  stuck s /\ g_handlers s = [HAsleep].
Proof.
  eexists. split; [vm_compute; reflexivity|]. split; [reflexivity|]. split; [|reflexivity].
  unfold stuck. split; [|split; reflexivity].
  intros [|t] resp; reflexivity.
Qed.

(** Two connections, packets from both, two handler threads, an answer. *)
Definition working : list gop :=
  [GAdd; GAdd; GQueue 1; GQueue 0; GPeer 0; GPeer 1; GHandler 0 None; GHandler 0 None; GHandler 0 None;
   GReceive 0 [1]; GReceive 0 [2]; GReceive 1 [3]; GNotify 0; GHandler 0 None;
   GReceive 1 [4]; GHandler 1 None; GHandler 1 None; GHandler 1 (Some [9])].

Lemma working_case : exists s, g_run (manager_init 2) working = Some s /\
  peer_id_of s 0 = Some 0 /\ peer_id_of s 1 = Some 1 /\
  received_from s 0 = [[1]; [2]] /\ received_from s 1 = [[3]; [4]] /\
  taken_of s 0 = [[1]; [2]] /\ taken_of s 1 = [[3]; [4]] /\
  by_thread 0 (g_taken s) = [Msg [3] 1; Msg [1] 0] /\
  g_answers s = [(Msg [4] 1, [9], Some 1%nat)] /\ g_running s = true.
Proof. eexists. split; [vm_compute; reflexivity|]. now vm_compute. Qed.

(** Before that, packets wait. *)
Definition waiting : list gop := take 13 working.
Lemma waiting_case : exists s, g_run (manager_init 2) waiting = Some s /\ g_running s = true /\
  peer_id_of s 0 = Some 0 /\ queued s 0 = [[1]; [2]] /\
  g_queues s !! 0%nat = Some [Msg [3] 1] /\
  exists s', g_run s (drop 13 working) = Some s' /\ (all_collects s (drop 13 working) = 2)%nat.
Proof.
  eexists. split; [vm_compute; reflexivity|]. split_and!; try reflexivity.
  eexists. split; vm_compute; reflexivity.
Qed.
