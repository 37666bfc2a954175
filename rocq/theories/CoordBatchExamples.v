From stdpp Require Import base option list.
From Coq Require Import NArith.
From Verif Require Import CoordBatchModel CoordBatchSpec CoordBatchProofs.
Open Scope nat_scope.

Notation H_ := (MHandler WExec).
Notation E_ := (MExec WHandler).
Notation S_ := (MStopper WExec).

(** Two transactions in a batch, one of them offered twice; a third one in the next. *)
Notation ex_moves :=
  [MStart; E_; E_; MRequest 7; H_; H_; E_; E_; MRequest 8; H_; H_; MRequest 7; H_; E_; E_; E_;
   MRequest 7; H_; H_; MBatch 0 (Some [true; false]); E_; E_; E_; E_; E_; E_; MBatch 0 None].
Lemma run_case : exists s, c_moves 3 3 coord_init ex_moves = Some s /\ c_stop s = SRun /\
  c_reqs s = [7; 8; 7; 7]%N /\ c_accepted s = [0; 1; 3] /\ c_refused s = [2] /\
  c_answers s = [(0, Some true); (1, Some false); (3, None)] /\
  c_done s = [([7; 8]%N, Some [true; false]); ([7]%N, None)] /\
  map (fun k => times_answered k s) [0; 1; 2; 3] = [1; 1; 0; 1].
Proof. eexists. split; [vm_compute; reflexivity|]. vm_compute. done. Qed.

Lemma run_reachable : exists s, reachable 3 3 s /\ c_stop s = SRun /\ 3 ∈ c_accepted s.
Proof.
  destruct run_case as (s & H & S & _ & A & _). exists s. split; [by exists ex_moves|].
  split; [done|]. rewrite A. vm_compute. right. right. left.
Qed.
Lemma stop_case : exists s, reachable 3 3 s /\ c_stop s <> SRun /\
  (forall tx r, c_handler s = HAsleep tx r -> exists b, c_exec s = ENotify b) /\
  c_stop s = SClose /\ c_work s <> [].
Proof.
  eexists. split; [exists [MStart; MRequest 7; H_; H_; E_; E_; E_; E_; E_; E_; MStop];
    vm_compute; reflexivity|].
  split; [done|]. split; [intros tx r H; discriminate|done].
Qed.

Lemma quiet_ok b m s : c_work s = [] -> handler_step b WExec s = None ->
  handler_step b WHandler s = None -> exec_step m WExec s = None ->
  exec_step m WHandler s = None -> stop_step WExec s = None -> stop_step WHandler s = None ->
  quiet b m s.
Proof.
  intros W H1 H2 E1 E2 S1 S2 mv I.
  destruct mv as [| w | w | i r | | | w |]; try done; try (by destruct w).
  cbn. unfold batch_step. by rewrite W.
Qed.

(** A batch of one, one thread. The first transaction runs, the second waits for the thread,
    the third is collected, and the handler sleeps with the fourth when the order to stop
    comes. *)
Notation hang_moves :=
  [MStart; MRequest 1; H_; H_; E_; E_; E_; E_; E_; E_;
   MRequest 2; H_; H_; E_; E_; E_; E_; E_; MRequest 3; H_; H_; MRequest 4; H_; MStop;
   MBatch 0 (Some [true]); E_; E_; MBatch 0 (Some [true])].
Lemma hang_case : exists s, reachable 1 1 s /\ c_stop s = SClose /\ quiet 1 1 s /\
  2 ∈ c_accepted s /\ times_answered 2 s = 0.
Proof.
  eexists. split; [exists hang_moves; vm_compute; reflexivity|].
  split; [reflexivity|]. split; [by apply quiet_ok|]. split; [|reflexivity].
  vm_compute. right. right. left.
Qed.

(** A transaction that is collected when the coordinator stops. *)
Lemma lost_case : exists s, reachable 2 1 s /\ c_stop s = SRun /\ 0 ∈ c_accepted s /\
  0 ∈ c_lost s /\ times_answered 0 s = 0.
Proof.
  eexists. split.
  { exists [MStart; MRequest 1; H_; H_; MStop; E_; S_; S_; S_; S_; MStart].
    vm_compute; reflexivity. }
  split; [reflexivity|]. split; [by vm_compute; left|]. split; [by vm_compute; left|reflexivity].
Qed.

Lemma no_room_case : exists s, reachable 0 1 s /\ c_stop s = SRun /\ quiet 0 1 s /\
  c_handler s = HAsleep 1 0.
Proof.
  eexists. split; [exists [MStart; MRequest 1; H_; E_; E_]; vm_compute; reflexivity|].
  split; [reflexivity|]. split; [by apply quiet_ok|reflexivity].
Qed.
Lemma no_thread_case : exists s, reachable 1 0 s /\ c_stop s = SRun /\ quiet 1 0 s /\
  0 ∈ c_accepted s /\ times_answered 0 s = 0.
Proof.
  eexists. split.
  { exists [MStart; MRequest 1; H_; H_; E_; E_; E_; E_; E_]. vm_compute; reflexivity. }
  split; [reflexivity|]. split; [by apply quiet_ok|]. split; [by vm_compute; left|reflexivity].
Qed.
