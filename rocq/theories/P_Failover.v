(** C38: the replicated PArSEC shard, through every history of requests, replication and
    changes of leader. [leads polite d acts es rs]: the leader [d] is reached by [acts]
    from clients that wait for answers before they prepare again and do not repeat a
    commit; [es] are the log entries applied so far. What a log stands for ([meaning_of])
    and what it is to restore it ([restored]) is in FailoverSpec.v. *)
From stdpp Require Import base option list gmap fin_maps fin_sets.
From Coq Require Import NArith Lia.
From Verif Require Import Base ParsecShardModel ParsecShardSpec FailoverModel FailoverSpec
  FailoverProofs FailoverExamples.
Open Scope N_scope.

(** At any point, and whatever part of the entries on their way survives, the next
    leader comes up with the store and the tickets the surviving log stands for: each
    committed update once, each prepared ticket with its update and its write locks. *)
Theorem C38_failover d acts es rs n :
  leads polite d acts es rs ->
  exists d', act_step d (ATakeOver n) = Some (Done (d', [])) /\ d_queue d' = [] /\
    restored (d_vol d') (meaning_of (surviving d es n)) /\ reachable (d_vol d').
Proof. exact (failover d acts es rs n). Qed.

(** The values the leader serves are those of the applied entries: they survive. *)
Theorem C38_served_values_survive d acts es rs k :
  leads polite d acts es rs -> e_val (el (d_vol d) k) = lookup_store (m_store (meaning_of es)) k.
Proof. exact (served_values_durable d acts es rs k). Qed.

(** The serving shard agrees with the log on the prepared and the committed tickets. *)
Theorem C38_open_tickets d acts es rs :
  leads polite d acts es rs ->
  (forall tn u, m_prepared (meaning_of es) !! tn = Some u ->
     exists t, s_tk (d_vol d) !! tn = Some t /\ t_state t = Prepared /\ t_update t = u) /\
  (forall tn, tn ∈ m_committed (meaning_of es) -> in_state (d_vol d) tn Committed).
Proof. exact (open_tickets d acts es rs). Qed.

(** No ticket is committed twice in the log. *)
Theorem C38_commits_once d acts es rs : leads polite d acts es rs -> commits_once es.
Proof. exact (leads_commits_once d acts es rs). Qed.

Example C38_nonvacuous : exists d es rs, leads polite d acts1 es rs /\
  fst <$> d_queue d = [LCommit 5; LPrepare 6 0 {[2 := [9]]}] /\
  m_prepared (meaning_of es) !! 5 = Some {[1 := [8]]} /\ 3 ∈ m_committed (meaning_of es) /\
  e_val (el (d_vol d) 1) = [7].
Proof. exact acts1_case. Qed.

(** A prepare answered with success is in the log, and the ticket prepared ... *)
Theorem C38_prepare_answer d acts es rs d' r :
  leads polite d acts es rs -> act_step d AApply = Some (Done (d', r)) -> RPrepared ∈ r ->
  exists tn b u k q, d_queue d = (LPrepare tn b u, k) :: q /\ d_queue d' = q /\
    m_prepared (meaning_of (es ++ [LPrepare tn b u])) !! tn = Some u /\
    tn ∉ m_committed (meaning_of (es ++ [LPrepare tn b u])).
Proof. exact (prepare_answer d acts es rs d' r). Qed.

Example C38_prepare_answer_nonvacuous : exists d es rs d', leads polite d acts2 es rs /\
  act_step d AApply = Some (Done (d', [RPrepared])).
Proof. exact acts2_case. Qed.

(** Nothing is acknowledged before it is replicated: a prepare, commit, rollback or finish
    that is not refused at once is put in the log, and answered when it is applied. *)
Theorem C38_no_early_answer d o ok e d' r : entry_of o = Some e ->
  act_step d (AServe o ok) = Some (Done (d', r)) ->
  RPrepared ∉ r /\ (forall ev, RShard ev ∈ r -> succeeded ev = false) /\
  (r = [] -> ok = true /\ exists k, d_queue d' = d_queue d ++ [(e, k)]).
Proof. exact (no_early_answer d o ok e d' r). Qed.

Example C38_no_early_answer_nonvacuous : entry_of (OCommit 3) = Some (LCommit 3) /\
  act_step leader0 (AServe (OCommit 3) true) = Some (Done (Leader shard0 rstate0 [(LCommit 3, KCommit)], [])).
Proof. split; reflexivity. Qed.

(** ... and it stays prepared until a commit, rollback or finish of it is applied. *)
Theorem C38_prepared_stays es m tn u :
  m_prepared m !! tn = Some u -> tn ∉ m_committed m ->
  LCommit tn ∉ es -> LFinish tn ∉ es -> m_prepared (fold_left means es m) !! tn = Some u.
Proof. exact (prepared_stays es m tn u). Qed.

(** A commit the shard answered succeeded, and wrote the update that was prepared. *)
Theorem C38_commit_answer d acts es rs tn k q d' r ev :
  leads polite d acts es rs -> d_queue d = (LCommit tn, k) :: q ->
  act_step d AApply = Some (Done (d', r)) -> RShard ev ∈ r ->
  exists u, m_prepared (meaning_of es) !! tn = Some u /\ succeeded ev = true /\
    m_store (meaning_of (es ++ [LCommit tn])) = u ∪ m_store (meaning_of es).
Proof. exact (commit_answer d acts es rs tn k q d' r ev). Qed.

Example C38_commit_answer_nonvacuous : exists d es rs k d' ev, leads polite d acts3 es rs /\
  d_queue d = [(LCommit 3, k)] /\ act_step d AApply = Some (Done (d', [RShard ev])).
Proof. exact acts3_case. Qed.

(** Without the client's good manners the property is false. A repeated commit request
    empties the replicated values: the next leader has lost an acknowledged write. *)
Theorem C38_repeated_commit_refuted :
  exists d es rs d', leads (fun _ _ => True) d acts_twice es rs /\
  RShard [EReply None] ∈ concat rs /\ e_val (el (d_vol d) 1) = [7] /\
  act_step d (ATakeOver 0) = Some (Done (d', [])) /\ e_val (el (d_vol d') 1) = [].
Proof. exact commit_twice. Qed.

(** A prepare that overtakes the answer of a rollback: the next leader restores two
    tickets that hold the write lock of one key. *)
Theorem C38_prepare_during_rollback_refuted :
  exists d es rs d', leads (fun _ _ => True) d acts_race es rs /\
  act_step d (ATakeOver 0) = Some (Done (d', [])) /\
  holds (d_vol d') 3 1 Write /\ holds (d_vol d') 5 1 Write.
Proof. exact rollback_race. Qed.

(** A finish of a prepared ticket is refused, and yet removes the ticket from the
    replicated state: the next leader does not know it. *)
Theorem C38_refused_finish_refuted :
  exists d es rs d', leads polite d acts_finish es rs /\
  last rs = Some [RShard [EReply (Some (ErNotCommitted, None))]] /\ in_state (d_vol d) 3 Prepared /\
  act_step d (ATakeOver 0) = Some (Done (d', [])) /\ s_tk (d_vol d') !! 3 = None.
Proof. exact finish_prepared. Qed.

Print Assumptions C38_failover.
Print Assumptions C38_served_values_survive.
Print Assumptions C38_open_tickets.
Print Assumptions C38_commits_once.
Print Assumptions C38_prepare_answer.
Print Assumptions C38_no_early_answer.
Print Assumptions C38_prepared_stays.
Print Assumptions C38_commit_answer.
Print Assumptions C38_repeated_commit_refuted.
Print Assumptions C38_prepare_during_rollback_refuted.
Print Assumptions C38_refused_finish_refuted.
