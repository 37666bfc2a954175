(** Properties C75 and C76: the agent that runs a client's request, and its server. *)
From stdpp Require Import base option list gmap.
From Coq Require Import NArith Lia.
From Verif Require Import Base ParsecShardModel BrokerModel AgentModel AgentSpec AgentReason AgentFacts AgentExamples.
Open Scope N_scope.

(** * C75: one agent, whoever calls it *)

(** C75: every request an agent makes of the broker names the one ticket number that the
    broker assigned to it, across all its attempts. *)
Theorem C75_one_ticket fn ilt ro l o q t e :
  past (a_tr (arun fn ilt ro l)) (Out (OReq o q)) e -> names q = Some t ->
  assigned e t /\
  forall o' q' t', Out (OReq o' q') ∈ a_tr (arun fn ilt ro l) -> names q' = Some t' -> t' = t.
Proof. exact (one_ticket fn ilt ro l o q t e). Qed.
Print Assumptions C75_one_ticket.

(** C75: what is committed is what a run of the function computed, and nothing if the run
    is read-only. *)
Theorem C75_commits_what_ran fn ilt ro l o t u e :
  past (a_tr (arun fn ilt ro l)) (Out (OReq o (QaCommit t u))) e ->
  exists u0, computed e u0 /\ u = if ro then ∅ else u0.
Proof. exact (commits_what_ran fn ilt ro l o t u e). Qed.
Print Assumptions C75_commits_what_ran.

(** C75: a read-only run asks for no lock to write and commits no update. *)
Theorem C75_read_only fn ilt l o q :
  Out (OReq o q) ∈ a_tr (arun fn ilt true l) -> writes_nothing q.
Proof. exact (read_only fn ilt true l o q eq_refl). Qed.
Print Assumptions C75_read_only.

(** C75: success is reported only after the reported updates were sent to be committed,
    a commit was confirmed, and the end was confirmed. If the broker answers a request
    twice, the confirmed commit may be another one: see [C76_answered_twice_refuted]. *)
Theorem C75_success_partial fn ilt ro l u e :
  past (a_tr (arun fn ilt ro l)) (Out (OReport (Done u))) e ->
  exists t c t' u', asked e c (QaCommit t (if ro then ∅ else u)) /\ commit_ok e t' u' /\ finish_ok e t.
Proof. exact (success_needs_commit fn ilt ro l u e). Qed.
Print Assumptions C75_success_partial.

(** C75: the agent ends its process only if it got no ticket number, or in a call of exec. *)
Theorem C75_survives_partial fn ilt ro l d e :
  past (a_tr (arun fn ilt ro l)) (Out (ODie d)) e ->
  (d = NoTicket /\ upkeep_failed e) \/ (d = AssertFails /\ exists e', e = In EvExec :: e').
Proof. exact (agent_survives fn ilt ro l d e). Qed.
Print Assumptions C75_survives_partial.

(** C75, refuted in general: exec may end the process, if it is called while the
    function's code is awaited. *)
Theorem C75_exec_any_time_refuted : exists fn ilt ro l,
  Out (ODie AssertFails) ∈ a_tr (arun fn ilt ro l).
Proof.
  exists ex_fn, Read, false, [(EvExec, []); (EvAnswer 0 (RTicket 7), []); (EvExec, [])].
  rewrite exec_case. apply elem_of_list_here.
Qed.
Print Assumptions C75_exec_any_time_refuted.

(** C75: a lock the running function asks for is asked of the broker, with the agent's
    ticket, for the same key and in the same mode. *)
Theorem C75_lock_asked fn ilt ro l run v t k m ch :
  let a := arun fn ilt ro l in
  asked (a_tr a) run (QaRun v) -> (ro = true -> m = Read) ->
  a_dead a = false -> a_st a = AStarted -> a_tk a = Some t -> a_wound a = false ->
  exists id, a_tr (astep fn ilt ro a (EvLock run k m, Later :: ch)) =
    Out (OReq (Some id) (QaLock (Runner run) t k m)) :: In (EvLock run k m) :: a_tr a.
Proof. exact (lock_asked fn ilt ro l run v t k m ch). Qed.
Print Assumptions C75_lock_asked.

(** C75: the broker's answer is passed to the run that asked for the lock, unchanged. *)
Theorem C75_lock_answered fn ilt ro l id run t k m r ch :
  let a := arun fn ilt ro l in
  asked (a_tr a) id (QaLock (Runner run) t k m) -> fits a (EvAnswer id r) = true ->
  a_dead a = false -> a_st a = AStarted ->
  a_tr (astep fn ilt ro a (EvAnswer id r, ch)) = Out (OLock run r) :: In (EvAnswer id r) :: a_tr a.
Proof. exact (lock_answered fn ilt ro l id run t k m r ch). Qed.
Print Assumptions C75_lock_answered.

(** A run that is wounded, retried and committed, and a read-only one. *)
Example C75_case : reports (a_tr (arun ex_fn Read false ex_agent)) = [Done ex_upd; Fail XRetry].
Proof. exact ex_agent_done. Qed.
Example C75_read_only_case :
  Out (OReq (Some 4) (QaCommit 7 ∅)) ∈ a_tr (arun ex_fn Write true ex_readonly) /\
  Out (OReq (Some 1) (QaFunction 7 Read)) ∈ a_tr (arun ex_fn Write true ex_readonly) /\
  reports (a_tr (arun ex_fn Write true ex_readonly)) = [Done ex_upd].
Proof. exact ex_readonly_run. Qed.
Example C75_lock_case :
  let a := arun ex_fn Read false (take 3 ex_agent) in
  a_made a !! 2 = Some (QaRun [9]) /\ a_dead a = false /\ a_st a = AStarted /\ a_tk a = Some 7 /\ a_wound a = false.
Proof. vm_compute. auto 10. Qed.
Example C75_lock_answered_case :
  let a := arun ex_fn Read false (take 4 ex_agent) in
  a_made a !! 3 = Some (QaLock (Runner 2) 7 5 Write) /\ fits a (EvAnswer 3 (RValue [1])) = true /\
  a_dead a = false /\ a_st a = AStarted.
Proof. vm_compute. auto 10. Qed.

(** * C76: the agent and the server that owns it

    The theorems assume that no request of the agent is answered twice ([once]). The
    broker does answer twice in one case, [C39_answered_once_refuted]; what follows then is
    [C76_answered_twice_refuted]. *)

(** C76: a client that is told its transaction succeeded is told the updates that were
    committed: the broker confirmed a commit of exactly them, and the end. *)
Theorem C76_success fn ilt ro lua l u e :
  let tr := a_tr (v_ag (srun fn ilt ro lua l)) in
  once tr -> past tr (Out (OReport (Done u))) e ->
  exists t, commit_ok e t (if ro then ∅ else u) /\ finish_ok e t.
Proof. exact (told_done fn ilt ro lua l u e). Qed.
Print Assumptions C76_success.

(** C76: what is committed was computed by a run that was started after the last rollback. *)
Theorem C76_commits_last_run fn ilt ro lua l o t u e :
  let tr := a_tr (v_ag (srun fn ilt ro lua l)) in
  once tr -> past tr (Out (OReq o (QaCommit t u))) e ->
  exists u0, fresh_run e u0 /\ u = if ro then ∅ else u0.
Proof. exact (commit_of_last_run fn ilt ro lua l o t u e). Qed.
Print Assumptions C76_commits_last_run.

(** C76: once a commit is confirmed, nothing is asked of the broker but to finish: it is
    neither rolled back nor run again. *)
Theorem C76_commit_is_final fn ilt ro lua l o q e :
  let tr := a_tr (v_ag (srun fn ilt ro lua l)) in
  once tr -> past tr (Out (OReq o q)) e -> committed e -> is_finish q.
Proof. exact (after_commit fn ilt ro lua l o q e). Qed.
Print Assumptions C76_commit_is_final.

(** C76: once a commit is confirmed, the client is told of success, or that the end failed
    or the broker could not be reached. *)
Theorem C76_told_after_commit_partial fn ilt ro lua l r e :
  let tr := a_tr (v_ag (srun fn ilt ro lua l)) in
  once tr -> past tr (Out (OReport r)) e -> committed e ->
  (exists u, r = Done u) \/ r = Fail XFinish \/ r = Fail XUnreachable.
Proof. exact (after_commit_told fn ilt ro lua l r e). Qed.
Print Assumptions C76_told_after_commit_partial.

(** C76, refuted: a client whose transaction was committed is told of success. *)
Theorem C76_committed_is_success_refuted : exists fn ilt ro lua l t u,
  let tr := a_tr (v_ag (srun fn ilt ro lua l)) in
  once tr /\ commit_ok tr t u /\ told (v_ag (srun fn ilt ro lua l)) = [Fail XFinish].
Proof.
  exists ex_fn, Read, false, true, ex_unfinished, 7, ex_upd.
  destruct unfinished_case as (H1 & H2 & H3 & _). exact (conj H1 (conj H2 H3)).
Qed.
Print Assumptions C76_committed_is_success_refuted.

(** C76: a client that is told that its function could not be read, failed, or was not
    committed: the broker confirmed a rollback, and no commit. *)
Theorem C76_failure_undone fn ilt ro lua l x e :
  let tr := a_tr (v_ag (srun fn ilt ro lua l)) in
  once tr -> past tr (Out (OReport (Fail x))) e -> x = XRetrieval \/ x = XExecution \/ x = XCommit ->
  undone e /\ ~ committed e.
Proof. exact (failure_undone fn ilt ro lua l x e). Qed.
Print Assumptions C76_failure_undone.

(** C76: what is reported happened in the attempt that is reported. A request is run again
    only after a wound or because the broker or the runner did not do what was asked; a
    client is told that its function could not be read, failed or was not committed only
    after the broker or the runner said so, for another reason than a wound. *)
Theorem C76_reason fn ilt ro lua l x e :
  let tr := a_tr (v_ag (srun fn ilt ro lua l)) in
  once tr -> past tr (Out (OReport (Fail x))) e -> reason x e.
Proof. exact (told_reason fn ilt ro lua l x e). Qed.
Print Assumptions C76_reason.

(** C76: a run is told about a lock what the broker has just answered for a lock it asked
    for, or that it is wounded, if a lock of the same attempt was refused with a wound. *)
Theorem C76_locks_true fn ilt ro lua l run r e :
  let tr := a_tr (v_ag (srun fn ilt ro lua l)) in
  once tr -> past tr (Out (OLock run r)) e -> lock_true e run r.
Proof. exact (told_lock fn ilt ro lua l run r e). Qed.
Print Assumptions C76_locks_true.
Example C76_reason_case : once (s_tr true ex_server) /\
  (exists e, past (s_tr true ex_server) (Out (OReport (Fail XRetry))) e) /\
  (exists e, past (s_tr true ex_server) (Out (OLock 2 ex_wounded)) e).
Proof. exact retry_case. Qed.

(** C76: a client is answered at most once. *)
Theorem C76_one_answer fn ilt ro lua l :
  once (a_tr (v_ag (srun fn ilt ro lua l))) -> (length (told (v_ag (srun fn ilt ro lua l))) <= 1)%nat.
Proof. exact (one_answer fn ilt ro lua l). Qed.
Print Assumptions C76_one_answer.

(** C76: a request is never stuck: until the client is answered, the agent waits for a
    request it made and that is pending, or the retry thread has it to run again. *)
Theorem C76_never_stuck fn ilt ro lua l :
  once (a_tr (v_ag (srun fn ilt ro lua l))) ->
  let v := srun fn ilt ro lua l in
  a_dead (v_ag v) = false ->
  a_st (v_ag v) = AInit \/
  (exists id q, (id, q) ∈ pending (a_tr (v_ag (srun fn ilt ro lua l))) /\ awaits (a_st (v_ag v)) q) \/
  (v_retried v < retries (v_ag v))%nat \/
  told (v_ag v) <> [].
Proof. exact (never_stuck fn ilt ro lua l). Qed.
Print Assumptions C76_never_stuck.

(** C76: a request ends the server's process only if the broker could not begin, roll back
    or finish, or if an answer came after the agent was destroyed; never by an assertion. *)
Theorem C76_survives_partial fn ilt ro lua l d e :
  let tr := a_tr (v_ag (srun fn ilt ro lua l)) in
  once tr -> past tr (Out (ODie d)) e ->
  ((d = NoTicket \/ d = Unfinished) /\ upkeep_failed e) \/
  (d = Freed /\ exists r, Out (OReport r) ∈ e /\ is_retry r = false).
Proof. exact (server_survives fn ilt ro lua l d e). Qed.
Print Assumptions C76_survives_partial.

(** C76, refuted: a server survives a request for which no ticket number can be had. *)
Theorem C76_survives_no_ticket_refuted : exists fn ilt ro lua l,
  let tr := a_tr (v_ag (srun fn ilt ro lua l)) in once tr /\ Out (ODie NoTicket) ∈ tr.
Proof.
  exists ex_fn, Read, false, true, [SRequest [Refuse]].
  destruct no_ticket_case as [H1 H2]. split; [exact H1|].
  exact (eq_rect_r (fun tr => Out (ODie NoTicket) ∈ tr) (elem_of_list_here _ _) H2).
Qed.
Print Assumptions C76_survives_no_ticket_refuted.

(** C76, refuted: the Lua server survives a request that was committed and not finished. *)
Theorem C76_survives_unfinished_refuted : exists fn ilt ro l t u,
  let tr := a_tr (v_ag (srun fn ilt ro true l)) in
  once tr /\ commit_ok tr t u /\ Out (ODie Unfinished) ∈ tr.
Proof.
  exists ex_fn, Read, false, ex_unfinished, 7, ex_upd.
  destruct unfinished_case as (H1 & H2 & _ & H4). exact (conj H1 (conj H2 H4)).
Qed.
Print Assumptions C76_survives_unfinished_refuted.

(** C76, refuted: no answer reaches a destroyed agent. *)
Theorem C76_no_use_after_free_refuted : exists fn ilt ro l u,
  let tr := a_tr (v_ag (srun fn ilt ro true l)) in
  once tr /\ told (v_ag (srun fn ilt ro true l)) = [Done u] /\ head tr = Some (Out (ODie Freed)).
Proof. exists ex_fn, Read, false, ex_late_lock, ex_upd. exact late_lock_case. Qed.
Print Assumptions C76_no_use_after_free_refuted.

(** C76, refuted for the EVM server, which destroys the agents of its requests: the agent
    of a request that failed is never destroyed. *)
Theorem C76_released_refuted :
  (forall fn ilt ro l x, once (a_tr (v_ag (srun fn ilt ro false l))) ->
     Fail x ∈ told (v_ag (srun fn ilt ro false l)) -> v_gone (srun fn ilt ro false l) = false) /\
  exists fn ilt ro l x, once (a_tr (v_ag (srun fn ilt ro false l))) /\
     told (v_ag (srun fn ilt ro false l)) = [Fail x].
Proof.
  split; [exact evm_leak|]. exists ex_fn, Read, false, (ex_error ++ [SClean]), XExecution. exact leak_case.
Qed.
Print Assumptions C76_released_refuted.

(** C76, refuted if the broker answers twice: the client is told that updates were
    committed of which the broker confirmed no commit. *)
Theorem C76_answered_twice_refuted : exists fn ilt ro lua l u,
  told (v_ag (srun fn ilt ro lua l)) = [Done u] /\
  forall t, ~ commit_ok (a_tr (v_ag (srun fn ilt ro lua l))) t (if ro then ∅ else u).
Proof. exists ex_fn, Read, false, true, ex_twice, ex_upd. exact twice_case. Qed.
Print Assumptions C76_answered_twice_refuted.

(** C76: C75 applies to the agent of a server: but for the end of the process, its record
    is that of an agent. *)
Theorem C76_is_agent fn ilt ro lua l : exists l' extra,
  a_tr (v_ag (srun fn ilt ro lua l)) = extra ++ a_tr (arun fn ilt ro l') /\
  forall o, Out o ∈ extra -> exists d, o = ODie d.
Proof. exact (server_is_agent fn ilt ro lua l). Qed.
Print Assumptions C76_is_agent.

(** A request that is wounded, retried, committed and finished; then its agent is
    destroyed. And one that fails. *)
Example C76_case : once (s_tr true ex_server) /\ s_told true ex_server = [Done ex_upd] /\
  v_gone (srun ex_fn Read false true ex_server) = true /\
  a_dead (v_ag (srun ex_fn Read false true ex_server)) = false.
Proof. exact ex_server_done. Qed.
Example C76_failure_case : once (s_tr true ex_error) /\ s_told true ex_error = [Fail XExecution].
Proof. exact ex_error_told. Qed.
