(** C39 and C40: the broker with its shards, in every execution: any number of shards and
    transactions, any clients that follow the rules [allowed] of BrokerSpec.v, any other
    brokers at the same shards, unreachable shards, and crashes of the broker at any
    point. [reaches loc nsh self own n g]: the system is in state [n] and an observer has
    noted [g]: which shards a transaction used ([asked]), the updates its client asked to
    commit ([g_upd]) and what each shard committed for it ([g_done]). [loc k] is the shard
    of key [k]. *)
From stdpp Require Import base option list gmap fin_maps fin_sets.
From Coq Require Import NArith Lia.
From Verif Require Import Base ParsecShardModel ParsecShardSpec BrokerModel BrokerSpec BrokerFinal BrokerExamples.
Open Scope N_scope.

(** ** C39 *)

(** If one shard committed for a transaction, it committed its part of the updates the
    client asked for, and every shard the transaction used either committed its part
    too or holds it prepared. *)
Theorem C39_all_or_nothing loc nsh self own n g t i u :
  (forall k, loc k < nsh) -> reaches loc nsh self own n g -> g_done g !! (t, i) = Some u ->
  exists U, g_upd g !! t = Some U /\ u = part loc U i /\ i ∈ asked g t /\
    forall j, j ∈ asked g t -> g_done g !! (t, j) = Some (part loc U j) \/ ready n j t (part loc U j).
Proof. intros H. exact (all_or_nothing loc nsh self own H n g t i u). Qed.
Print Assumptions C39_all_or_nothing.

Example C39_all_or_nothing_nonvacuous : (forall k, loc2 k < 2) /\ exists n g, reaches loc2 2 7 own2 n g /\
  g_done g !! (3, 0) = Some {[10 := [1]]} /\ g_done g !! (3, 1) = None /\ value n 0 10 = [1] /\ value n 1 11 = [].
Proof. exact (conj loc2_ok half_case). Qed.

(** No update is left out: the key of every update is on a shard the transaction used. *)
Theorem C39_no_update_lost loc nsh self own n g t U k :
  (forall k, loc k < nsh) -> reaches loc nsh self own n g -> g_upd g !! t = Some U -> is_Some (U !! k) ->
  loc k ∈ asked g t.
Proof. intros H. exact (covered loc nsh self own H n g t U k). Qed.
Print Assumptions C39_no_update_lost.

(** Committing writes exactly those values: what the observer noted is what the shard
    wrote, and nothing else changed on any shard. *)
Theorem C39_commit_writes loc nsh self own n g i t u c r n' cs :
  (forall k, loc k < nsh) -> reaches loc nsh self own n g ->
  n_req n i = (QCommit t, c) :: r -> ready n i t u -> n_step loc nsh self n (AShard i) = Some (n', cs) ->
  g_done (note loc n g (AShard i) cs) !! (t, i) = Some u /\
  (forall k, value n' i k = default (value n i k) (u !! k)) /\
  (forall j k, j <> i -> value n' j k = value n j k).
Proof. intros H. exact (commit_writes loc nsh self own H n g i t u c r n' cs). Qed.
Print Assumptions C39_commit_writes.

Example C39_commit_writes_nonvacuous : exists n g c r n' cs, reaches loc2 2 7 own2 n g /\
  n_req n 1 = (QCommit 3, c) :: r /\ ready n 1 3 {[11 := [2]]} /\ n_step loc2 2 7 n (AShard 1) = Some (n', cs).
Proof. exact commit_case. Qed.

(** A commit reported as successful is committed on every shard the transaction used. *)
Theorem C39_commit_reported loc nsh self own n g a n' cs cid t :
  (forall k, loc k < nsh) -> reaches loc nsh self own n g -> allowed nsh self own n g a ->
  n_step loc nsh self n a = Some (n', cs) -> of_commit n a cid t -> (Client cid, ROk) ∈ cs ->
  committed_everywhere loc (note loc n g a cs) t.
Proof. intros H. exact (reported_commit loc nsh self own H n g a n' cs cid t). Qed.
Print Assumptions C39_commit_reported.

Example C39_commit_reported_nonvacuous : exists n g n' cs p r, reaches loc2 2 7 own2 n g /\
  allowed 2 7 own2 n g (AAnswer 1 [0; 1] ∅) /\ n_rsp n 1 = (KCommit (CUser 53) 3, p) :: r /\
  n_step loc2 2 7 n (AAnswer 1 [0; 1] ∅) = Some (n', cs) /\ (Client 53, ROk) ∈ cs.
Proof. exact committed_case. Qed.

(** A shard rolls back a transaction it knows only if no shard committed it ... *)
Theorem C39_rollback_safe loc nsh self own n g i t c r :
  (forall k, loc k < nsh) -> reaches loc nsh self own n g ->
  n_req n i = (QRollback t, c) :: r -> s_tk (n_sh n i) !! t <> None -> committed_nowhere g t.
Proof. intros H. exact (rolled_back loc nsh self own H n g i t c r). Qed.
Print Assumptions C39_rollback_safe.

Example C39_rollback_safe_nonvacuous : exists n g c r, reaches loc2 2 7 own2 n g /\
  n_req n 0 = (QRollback 3, c) :: r /\ s_tk (n_sh n 0) !! 3 <> None.
Proof. exact rollback_case. Qed.

(** ... and a rollback reported as successful left no trace: committed nowhere, and no
    shard knows the ticket. *)
Theorem C39_rollback_reported loc nsh self own n g a n' cs cid t :
  (forall k, loc k < nsh) -> reaches loc nsh self own n g -> allowed nsh self own n g a ->
  n_step loc nsh self n a = Some (n', cs) -> of_rollback n a cid t -> (Client cid, ROk) ∈ cs ->
  forgotten n' t /\ committed_nowhere (note loc n g a cs) t.
Proof. intros H. exact (reported_rollback loc nsh self own H n g a n' cs cid t). Qed.
Print Assumptions C39_rollback_reported.

Example C39_rollback_reported_nonvacuous : exists n g n' cs p r, reaches loc2 2 7 own2 n g /\
  allowed 2 7 own2 n g (AAnswer 1 [0; 1] ∅) /\ n_rsp n 1 = (KRollback (CUser 54) 3, p) :: r /\
  n_step loc2 2 7 n (AAnswer 1 [0; 1] ∅) = Some (n', cs) /\ (Client 54, ROk) ∈ cs.
Proof. exact undone_case. Qed.

(** A transaction reported as finished is committed on every shard it used or on none,
    and no shard knows it any more. *)
Theorem C39_finish_reported loc nsh self own n g a n' cs cid t :
  (forall k, loc k < nsh) -> reaches loc nsh self own n g -> allowed nsh self own n g a ->
  n_step loc nsh self n a = Some (n', cs) -> of_finish n a cid t -> (Client cid, ROk) ∈ cs ->
  let g' := note loc n g a cs in
  forgotten n' t /\ (committed_everywhere loc g' t \/ committed_nowhere g' t).
Proof. intros H. exact (reported_finish loc nsh self own H n g a n' cs cid t). Qed.
Print Assumptions C39_finish_reported.

Example C39_finish_reported_nonvacuous : exists n g n' cs p r, reaches loc2 2 7 own2 n g /\
  allowed 2 7 own2 n g (AAnswer 1 [0; 1] ∅) /\ n_rsp n 1 = (KFinish (CUser 55) 3, p) :: r /\
  n_step loc2 2 7 n (AAnswer 1 [0; 1] ∅) = Some (n', cs) /\ (Client 55, ROk) ∈ cs.
Proof. exact finished_case. Qed.

(** The rules are needed. A client that commits again after a rollback that did not
    succeed can tear the transaction: one shard commits, the other has rolled back. *)
Theorem C39_commit_after_failed_rollback_refuted :
  exists n g l, runs loc2 2 7 (allowed_but_rollback 2 7 own2) n g l /\
    asked g 3 = {[0; 1]} /\ g_done g !! (3, 1) = Some {[11 := [2]]} /\ g_done g !! (3, 0) = None /\
    s_tk (n_sh n 0) !! 3 = None /\ value n 0 10 = [] /\ value n 1 11 = [2].
Proof. exact torn_case. Qed.
Print Assumptions C39_commit_after_failed_rollback_refuted.

(** A client that repeats a failed commit with other updates gets a mixture of the two
    committed, and is told that it succeeded. *)
Theorem C39_commit_with_other_updates_refuted :
  exists n g l, runs loc2 2 7 (allowed_but_updates 2 7 own2) n g l /\
    (Client 55, ROk) ∈ l /\ g_upd g !! 3 = Some {[10 := [8]; 11 := [9]]} /\ value n 0 10 = [1] /\ value n 1 11 = [9].
Proof. exact mixed_case. Qed.
Print Assumptions C39_commit_with_other_updates_refuted.

(** A commit is not always answered: for a transaction that locked nothing, nothing is
    sent, nothing is outstanding and the callback has not been called. *)
Theorem C39_every_commit_answered_refuted :
  exists n g n', reaches loc2 2 7 own2 n g /\ allowed 2 7 own2 n g (ACommit 51 3 ∅ [0; 1] ∅) /\
    n_step loc2 2 7 n (ACommit 51 3 ∅ [0; 1] ∅) = Some (n', []) /\
    (forall i, i < 2 -> n_req n' i = [] /\ n_rsp n' i = []) /\ n_wait n' = ∅ /\ broker_state n' 3 = Some BBegun.
Proof. exact idle_case. Qed.
Print Assumptions C39_every_commit_answered_refuted.

(** Nor is it answered at most once. *)
Theorem C39_answered_once_refuted :
  exists n g l, runs loc2 2 7 (allowed 2 7 own2) n g l /\ count_calls 55 l = 2%nat /\ (Client 53, ROk) ∈ l.
Proof. exact twice_case. Qed.
Print Assumptions C39_answered_once_refuted.

(** ** C40 *)

(** When recovery reports success, the broker has no transactions, and each one begun
    before is committed on every shard it used or on none, and unknown to all shards. *)
Theorem C40_recovered loc nsh self own n g a n' cs t :
  (forall k, loc k < nsh) -> reaches loc nsh self own n g -> allowed nsh self own n g a ->
  n_step loc nsh self n a = Some (n', cs) -> (Recovery, ROk) ∈ cs ->
  let g' := note loc n g a cs in
  b_tk (n_b n') = ∅ /\
  (is_Some (g_ph g' !! t) -> forgotten n' t /\ (committed_everywhere loc g' t \/ committed_nowhere g' t)).
Proof. intros H. exact (recovered loc nsh self own H n g a n' cs t). Qed.
Print Assumptions C40_recovered.

Example C40_recovered_nonvacuous : exists n g n' cs, reaches loc2 2 7 own2 n g /\
  allowed 2 7 own2 n g (AAnswer 1 [0; 1] ∅) /\
  n_step loc2 2 7 n (AAnswer 1 [0; 1] ∅) = Some (n', cs) /\ (Recovery, ROk) ∈ cs /\ g_ph g !! 3 = Some Orphan /\
  g_done g !! (3, 1) = Some {[11 := [2]]}.
Proof. exact recovered_case. Qed.

(** Calling it again in the same process is not safe: its answers are taken for those of
    the first, and a transaction begun meanwhile is rolled back under its client. *)
Theorem C40_second_recovery_refuted :
  exists n g l, runs loc2 2 7 (allowed_but_recover 2 7 own2) n g l /\
    g_ph g !! 3 = Some Work /\ (Client 51, RValue []) ∈ l /\ s_tk (n_sh n 0) !! 3 = None.
Proof. exact again_case. Qed.
Print Assumptions C40_second_recovery_refuted.
