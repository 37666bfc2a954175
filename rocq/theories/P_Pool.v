(** C89: the pool of threads starts every task it was given, once, and without making it wait for
    another task; its destructor waits for the tasks that run. *)
From Coq Require Import List Bool Arith.
From stdpp Require Import base option list.
From Verif Require Import PoolModel PoolSpec PoolProofs PoolExamples.
Import ListNotations.

(** Whatever happens, no task is started twice, and none that was not given to the pool. *)
Theorem C89_once : forall ls p, runs pool0 ls = Some p ->
  NoDup (starts (p_events p)) /\ forall t, Started t ∈ p_events p -> Called t ∈ p_events p.
Proof. exact started_once. Qed.
Print Assumptions C89_once.
Example C89_once_ex :
  show (runs pool0 busy_run) =
    Some ([Called 1; Called 2; Returned 2; Started 2; Returned 1; Started 1; Finished 2; Called 3; Returned 3; Called 4], 2) /\
  show (runs pool0 (busy_run ++ busy_rest)) =
    Some ([Called 1; Called 2; Returned 2; Started 2; Returned 1; Started 1; Finished 2; Called 3; Returned 3; Called 4;
           Started 3; Returned 4; Started 4], 3).
Proof. exact busy_case. Qed.

(** As long as the pool is not being destroyed: its code has only boundedly many steps to do from
    any state it can be in, although no task goes on, and when it has done them, in whatever
    order, every call of push has returned and every task is started. *)
Theorem C89_no_waiting : forall ls p, runs pool0 ls = Some p -> DestroyCalled ∉ p_events p -> Terminated ∉ p_events p ->
  exists n, forall ls' p', Forall (fun l => own l = true) ls' -> runs p ls' = Some p' ->
  length ls' <= n /\ (quiet own p' -> forall t, Called t ∈ p_events p' -> Returned t ∈ p_events p' /\ Started t ∈ p_events p').
Proof. exact no_waiting. Qed.
Print Assumptions C89_no_waiting.
Example C89_no_waiting_ex : show (runs pool0 (busy_run ++ busy_rest)) =
    Some ([Called 1; Called 2; Returned 2; Started 2; Returned 1; Started 1; Finished 2; Called 3; Returned 3; Called 4;
           Started 3; Returned 4; Started 4], 3).
Proof. exact (proj2 busy_case). Qed.

(** There are never more threads than tasks were given to the pool. *)
Theorem C89_threads : forall ls p, runs pool0 ls = Some p -> length (p_threads p) <= length (calls (p_events p)).
Proof. exact threads_bound. Qed.
Print Assumptions C89_threads.

(** When the pool's code has nothing to do, every thread without a task is idle. *)
Theorem C89_idle : forall ls p, runs pool0 ls = Some p -> DestroyCalled ∉ p_events p -> Terminated ∉ p_events p -> quiet own p ->
  forall i x, p_threads p !! i = Some x -> (forall t, t_pos x <> TRun t) -> t_running x = false.
Proof. exact idle_marked. Qed.
Print Assumptions C89_idle.

(** No thread is made while one is idle: if the [i]th thread is idle when a call of push gets the
    mutex, there are as many threads after the call as before. *)
Theorem C89_reuse : forall p k p1 i x ls p2, step p (LLock k) = Some p1 -> p_threads p !! i = Some x -> t_running x = false ->
  Forall (fun l => no_locks l = true) ls -> runs p1 ls = Some p2 -> length (p_threads p2) = length (p_threads p).
Proof. exact reuse. Qed.
Print Assumptions C89_reuse.
Example C89_reuse_ex : exists p p1 p2 x,
  runs pool0 [LCall None 1; LLock 0; LHold; LHold; LPop 0; LFinish 0; LFlag 0; LCall None 2] = Some p /\
  step p (LLock 0) = Some p1 /\ p_threads p !! 0 = Some x /\ t_running x = false /\
  runs p1 [LHold; LHold; LPop 0] = Some p2 /\ length (p_threads p2) = 1 /\ Started 2 ∈ p_events p2.
Proof. exact idle_case. Qed.

(** Once the destructor was called: boundedly many steps of the pool and returns of tasks are left,
    and when they are done the destructor has returned and every task that was started has
    finished.  Missing: tasks that wait inside a call to the pool (see the refutations), and tasks
    that were taken and not started. *)
Theorem C89_destroy_partial : forall ls p, runs pool0 ls = Some p -> DestroyCalled ∈ p_events p ->
  exists n, forall ls' p', Forall (fun l => ending l = true) ls' -> runs p ls' = Some p' ->
  length ls' <= n /\
  (quiet ending p' -> ~ some_held p' -> Terminated ∉ p_events p' ->
   Destroyed ∈ p_events p' /\ forall t, Started t ∈ p_events p' -> Finished t ∈ p_events p').
Proof. exact destruction. Qed.
Print Assumptions C89_destroy_partial.
Example C89_destroy_ex :
  show (runs pool0 (end_run ++ [LDestroyLock; LHold; LFinish 0; LFlag 0; LPop 0; LHold; LHold])) =
  Some ([Called 1; Returned 1; Started 1; DestroyCalled; Finished 1; Destroyed], 1).
Proof. exact end_case. Qed.

(** The pool does not end the process if no task throws and the destructor is called from outside. *)
Theorem C89_survives_partial : forall ls p, Forall (fun l => harmless l = true) ls -> runs pool0 ls = Some p ->
  Terminated ∉ p_events p.
Proof. exact not_terminated. Qed.
Print Assumptions C89_survives_partial.

(** "Every task that push took is run": the destructor drops tasks. *)
Theorem C89_dropped_refuted : exists ls p t, runs pool0 ls = Some p /\
  Returned t ∈ p_events p /\ Destroyed ∈ p_events p /\ Started t ∉ p_events p.
Proof. exact dropped_witness. Qed.
Print Assumptions C89_dropped_refuted.

(** "The destructor returns when the tasks are done": a task that calls push meanwhile waits for
    the mutex that the destructor holds while it waits for the task. *)
Theorem C89_deadlock_refuted : exists ls p, runs pool0 ls = Some p /\ Forall (fun l => l <> LThrow 0) ls /\
  DestroyCalled ∈ p_events p /\ Destroyed ∉ p_events p /\ Terminated ∉ p_events p /\ forall l, step p l = None.
Proof. exact stuck_witness. Qed.
Print Assumptions C89_deadlock_refuted.

(** "Whoever drops the last reference to the pool destroys it": a task of the pool ends the
    process by it. *)
Theorem C89_self_refuted : exists ls p, runs pool0 ls = Some p /\ Forall (fun l => forall i, l <> LThrow i) ls /\
  Terminated ∈ p_events p.
Proof. exact self_witness. Qed.
Print Assumptions C89_self_refuted.
