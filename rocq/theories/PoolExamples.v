(** Concrete runs of the pool of threads. *)
From Coq Require Import List Bool Arith.
From stdpp Require Import base option list.
From Verif Require Import PoolModel PoolSpec.
Import ListNotations.

(** Two tasks at once, then a third one that runs on the first thread again; the first task itself
    gives the pool the fourth. *)
Notation busy_run := [LCall None 1; LCall None 2; LLock 1; LHold; LHold; LLock 0; LPop 0; LHold; LHold; LHold; LPop 1;
  LFinish 0; LFlag 0; LCall None 3; LLock 0; LHold; LHold; LCall (Some 1) 4].
Notation busy_rest := [LPop 0; LLock 0; LHold; LHold; LHold; LHold; LPop 2].
Definition show (o : option pool) : option (list event * nat) := o ≫= fun p => Some (p_events p, length (p_threads p)).
Lemma busy_case :
  show (runs pool0 busy_run) =
    Some ([Called 1; Called 2; Returned 2; Started 2; Returned 1; Started 1; Finished 2; Called 3; Returned 3; Called 4], 2) /\
  show (runs pool0 (busy_run ++ busy_rest)) =
    Some ([Called 1; Called 2; Returned 2; Started 2; Returned 1; Started 1; Finished 2; Called 3; Returned 3; Called 4;
           Started 3; Returned 4; Started 4], 3).
Proof. split; vm_compute; reflexivity. Qed.

(** An idle thread is used again. *)
Lemma idle_case : exists p p1 p2 x,
  runs pool0 [LCall None 1; LLock 0; LHold; LHold; LPop 0; LFinish 0; LFlag 0; LCall None 2] = Some p /\
  step p (LLock 0) = Some p1 /\ p_threads p !! 0 = Some x /\ t_running x = false /\
  runs p1 [LHold; LHold; LPop 0] = Some p2 /\ length (p_threads p2) = 1 /\ Started 2 ∈ p_events p2.
Proof. do 4 eexists. split; [vm_compute; reflexivity|]. do 5 (split; [vm_compute; reflexivity|]). rewrite elem_of_list_In. vm_compute. tauto. Qed.

(** A destruction that waits for the task that runs. *)
Notation end_run := [LCall None 1; LLock 0; LHold; LHold; LPop 0; LDestroy None].
Lemma end_case :
  show (runs pool0 (end_run ++ [LDestroyLock; LHold; LFinish 0; LFlag 0; LPop 0; LHold; LHold])) =
  Some ([Called 1; Returned 1; Started 1; DestroyCalled; Finished 1; Destroyed], 1).
Proof. vm_compute. reflexivity. Qed.

(** A task that was taken is dropped: no thread had come to start it. *)
Lemma dropped_witness : exists ls p t, runs pool0 ls = Some p /\
  Returned t ∈ p_events p /\ Destroyed ∈ p_events p /\ Started t ∉ p_events p.
Proof.
  exists [LCall None 1; LLock 0; LHold; LHold; LDestroy None; LDestroyLock; LHold; LPop 0; LHold; LHold].
  eexists. exists 1. split; [vm_compute; reflexivity|]. cbn.
  rewrite !elem_of_list_In. cbn. repeat split; [tauto..|]. intuition discriminate.
Qed.

(** A task that gives the pool another task while the pool is destroyed waits for ever, and so does
    the destructor. *)
Notation stuck_run := [LCall None 1; LLock 0; LHold; LHold; LPop 0; LDestroy None; LDestroyLock; LHold; LCall (Some 0) 2].
Lemma stuck_witness : exists ls p, runs pool0 ls = Some p /\ Forall (fun l => l <> LThrow 0) ls /\
  DestroyCalled ∈ p_events p /\ Destroyed ∉ p_events p /\ Terminated ∉ p_events p /\ forall l, step p l = None.
Proof.
  exists stuck_run. eexists. split; [vm_compute; reflexivity|]. split; [repeat (constructor; [discriminate|]); constructor|].
  cbn. rewrite !elem_of_list_In. cbn. split; [tauto|]. split; [intuition discriminate|]. split; [intuition discriminate|].
  intros l. unfold step. match goal with |- context[ended ?p] => replace (ended p) with false by (vm_compute; reflexivity) end.
  destruct l as [[[|i]|] t|k| |[|i]|[|i]|[|i]|[|i]|[[|i]|]|]; cbn; try reflexivity; try (destruct i; reflexivity).
  all: unfold caller_active, active, destroying; cbn; try reflexivity.
  all: try (rewrite andb_false_r; reflexivity).
Qed.

(** The destructor run by a task of the pool ends the process. *)
Lemma self_witness : exists ls p, runs pool0 ls = Some p /\ Forall (fun l => forall i, l <> LThrow i) ls /\ Terminated ∈ p_events p.
Proof.
  exists [LCall None 1; LLock 0; LHold; LHold; LPop 0; LDestroy (Some 0); LDestroyLock; LHold; LHold].
  eexists. split; [vm_compute; reflexivity|]. split; [repeat (constructor; [discriminate|]); constructor|].
  cbn. rewrite elem_of_list_In. cbn. tauto.
Qed.
