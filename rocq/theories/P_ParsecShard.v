(** C32-C37 and C54: the PArSEC runtime locking shard, in every execution that starts
    empty or from recovered state and serves any requests in any order. The vocabulary
    ([holds], [waits], [waits_for], [executes], the client's [view]) is in
    ParsecShardSpec.v. *)
From stdpp Require Import base option list gmap fin_maps fin_sets relations.
From Coq Require Import NArith Lia.
From Verif Require Import Base ParsecShardModel ParsecShardSpec ParsecShardFinal
  ParsecShardExamples.
Open Scope N_scope.

(** ** C32 *)

(** If a ticket holds a write lock on a key, every lock on the key is its own. *)
Theorem C32_lock_exclusion s a b k m :
  reachable s -> holds s a k Write -> holds s b k m -> a = b.
Proof. exact (exclusion s a b k m). Qed.
Print Assumptions C32_lock_exclusion.

Example C32_nonvacuous : exists s, reachable s /\ holds s 3 1 Write /\ holds s 3 2 Read /\
  in_state s 5 Wounded.
Proof.
  destruct ops1_run as (s & tr & He & A & B & C & _). exists s.
  split; [exists ∅, ∅, ops1, tr; exact He|auto].
Qed.

(** A request answered with a value has its lock. *)
Theorem C32_granted_is_held s o s' ev rid b :
  reachable s -> step s o = Done (s', ev) -> ELock rid (Granted b) ∈ ev ->
  exists k tn m m', holds s' tn k m' /\
    (waits s tn k m rid \/ exists br f, o = OTryLock rid tn br k m f).
Proof. exact (grant_locks s o s' ev rid b). Qed.
Print Assumptions C32_granted_is_held.

(** ** C33 *)

(** A ticket waits only for older tickets and for prepared ones ... *)
Theorem C33_waits_only_for_older_or_prepared s a b :
  reachable s -> waits_for s a b -> b < a \/ in_state s b Prepared.
Proof. exact (waits_for_order s a b). Qed.
Print Assumptions C33_waits_only_for_older_or_prepared.

(** ... prepared ones wait for nothing ... *)
Theorem C33_prepared_waits_for_nothing s a k m rid :
  reachable s -> in_state s a Prepared -> ~ waits s a k m rid.
Proof. exact (prepared_waits_not s a k m rid). Qed.
Print Assumptions C33_prepared_waits_for_nothing.

(** ... so no chain of waiting tickets closes ... *)
Theorem C33_no_deadlock s a : reachable s -> ~ tc (waits_for s) a a.
Proof. exact (no_deadlock s a). Qed.
Print Assumptions C33_no_deadlock.

(** ... and every chain leads to a ticket that waits for nothing. *)
Theorem C33_progress s a k m rid :
  reachable s -> waits s a k m rid ->
  exists b, tc (waits_for s) a b /\ forall k' m' rid', ~ waits s b k' m' rid'.
Proof. exact (progress s a k m rid). Qed.
Print Assumptions C33_progress.

(** The oldest ticket of the shard waits only for prepared ones. *)
Theorem C33_oldest_waits_only_for_prepared s a k m rid :
  reachable s -> waits s a k m rid ->
  (forall b : ticket_no, b < a -> s_tk s !! b = None) ->
  exists b, waits_for s a b /\ in_state s b Prepared.
Proof. exact (oldest_never_waits s a k m rid). Qed.
Print Assumptions C33_oldest_waits_only_for_prepared.

Example C33_nonvacuous : exists s, reachable s /\ waits s 2 1 Write 103 /\ waits s 9 1 Read 104 /\
  waits_for s 2 3 /\ waits_for s 9 3 /\ waits_for s 9 2 /\ in_state s 3 Prepared.
Proof.
  destruct ops1_run as (s & tr & He & A & _ & _ & P & W1 & W2). exists s.
  split; [exists ∅, ∅, ops1, tr; exact He|]. split; [exact W1|]. split; [exact W2|].
  split; [|split; [|split; [|exact P]]].
  - split; [done|]. exists 1, Write, 103. split; [exact W1|]. left. exists Write. split; [exact A|now left].
  - split; [done|]. exists 1, Read, 104. split; [exact W2|]. left. exists Write. split; [exact A|now left].
  - split; [done|]. exists 1, Read, 104. split; [exact W2|]. right. exists Write, 103. split; [exact W1|done].
Qed.

(** The same over several shards, as long as a ticket is prepared on one of them only
    when it waits on none (agents prepare after all their locks are granted). *)
Theorem C33_no_deadlock_across_shards (ss : list shard) a :
  (forall s, s ∈ ss -> reachable s) ->
  (forall s s' b k m rid, s ∈ ss -> s' ∈ ss -> in_state s b Prepared -> ~ waits s' b k m rid) ->
  ~ tc (fun b c => exists s, s ∈ ss /\ waits_for s b c) a a.
Proof. exact (no_deadlock_shards ss a). Qed.
Print Assumptions C33_no_deadlock_across_shards.

Example C33_across_shards_nonvacuous : exists ss : list shard,
  length ss = 2%nat /\ (forall s, s ∈ ss -> reachable s) /\
  (forall s s' b k m rid, s ∈ ss -> s' ∈ ss -> in_state s b Prepared -> ~ waits s' b k m rid) /\
  exists s, s ∈ ss /\ waits_for s 5 3.
Proof.
  destruct ops4_run as (s & tr & He & W & H & Hn & _). exists [s; s]. split; [done|].
  split; [|split].
  - intros s' Hs. assert (s' = s) as ->.
    { apply elem_of_cons in Hs as [->|Hs]; [done|]. now apply elem_of_list_singleton in Hs. }
    exists ∅, ∅, ops4, tr. exact He.
  - intros s1 s2 b k m rid Hs _ Hp _. assert (s1 = s) as ->.
    { apply elem_of_cons in Hs as [->|Hs]; [done|]. now apply elem_of_list_singleton in Hs. }
    exact (Hn b Hp).
  - exists s. split; [left|]. split; [done|]. exists 1, Write, 2. split; [exact W|]. left.
    exists Write. split; [exact H|now left].
Qed.

(** ** C34 *)

(** The oldest request waiting for a key conflicts with a lock another ticket holds. *)
Theorem C34_no_lost_wakeup s k tn m rid :
  reachable s -> waits s tn k m rid ->
  (forall tn' m' rid', waits s tn' k m' rid' -> tn <= tn') ->
  exists h mh, holds s h k mh /\ h <> tn /\ conflict mh m.
Proof. exact (oldest_blocked s k tn m rid). Qed.
Print Assumptions C34_no_lost_wakeup.

(** Every waiting request has a reason to wait. *)
Theorem C34_waiting_has_reason s a k m rid :
  reachable s -> waits s a k m rid -> exists b, waits_for s a b.
Proof. exact (waiting_has_reason s a k m rid). Qed.
Print Assumptions C34_waiting_has_reason.

Example C34_nonvacuous : exists s, reachable s /\ waits s 5 1 Write 2 /\ holds s 3 1 Write.
Proof.
  destruct ops4_run as (s & tr & He & W & H & _). exists s.
  split; [exists ∅, ∅, ops4, tr; exact He|auto].
Qed.

(** ** C35 *)

(** No request but its own commit or rollback changes anything about a prepared ticket:
    state, locks, update. *)
Theorem C35_prepared_untouched s tn t o s' ev :
  reachable s -> s_tk s !! tn = Some t -> t_state t = Prepared ->
  o <> OCommit tn -> o <> ORollback tn -> step s o = Done (s', ev) ->
  s_tk s' !! tn = Some t.
Proof. exact (prepared_untouched s tn t o s' ev). Qed.
Print Assumptions C35_prepared_untouched.

(** Its commit succeeds and writes exactly its update. *)
Theorem C35_prepared_commits s tn t :
  reachable s -> s_tk s !! tn = Some t -> t_state t = Prepared ->
  exists s' ev, step s (OCommit tn) = Done (s', ev) /\ succeeded ev = true /\
    in_state s' tn Committed /\
    forall k, e_val (el s' k) = default (e_val (el s k)) (t_update t !! k).
Proof. exact (prepared_commits s tn t). Qed.
Print Assumptions C35_prepared_commits.

(** A value changes only when a prepared ticket that holds the write lock commits a
    write to that key. *)
Theorem C35_values_change_only_by_commit s o s' ev k :
  reachable s -> step s o = Done (s', ev) -> e_val (el s' k) <> e_val (el s k) ->
  exists tn t, o = OCommit tn /\ s_tk s !! tn = Some t /\ t_state t = Prepared /\
    holds s tn k Write /\ t_update t !! k = Some (e_val (el s' k)).
Proof. exact (values_change_by_commit s o s' ev k). Qed.
Print Assumptions C35_values_change_only_by_commit.

Example C35_nonvacuous : exists s t, reachable s /\ s_tk s !! 3 = Some t /\ t_state t = Prepared.
Proof.
  destruct ops1_run as (s & tr & He & _ & _ & _ & (t & Ht & P) & _). exists s, t.
  split; [exists ∅, ∅, ops1, tr; exact He|auto].
Qed.

(** A rollback may report success for a ticket whose commit reported success: its
    writes stay. *)
Theorem C35_commit_or_rollback_refuted : exists s tr, executes ∅ ∅ ops3 s tr /\
  (OCommit 5, [EReply None]) ∈ tr /\ (ORollback 5, [EReply None]) ∈ tr /\ e_val (el s 1) = [7].
Proof. exact commit_then_rollback. Qed.
Print Assumptions C35_commit_or_rollback_refuted.

(** ** C36 *)

(** The shard's state is the store to which the committed updates were applied whole,
    in commit order. *)
Theorem C36_state_is_committed_store state ts os s tr k :
  NoDup (issued os) -> executes state ts os s tr ->
  e_val (el s k) = lookup_store (v_store (view_of (view0 state ts) tr)) k.
Proof. exact (store_is_state state ts os s tr k). Qed.
Print Assumptions C36_state_is_committed_store.

(** A granted lock comes with the value of that store at that moment. *)
Theorem C36_grant_is_current state ts os s tr1 o ev tr2 rid b :
  NoDup (issued os) -> executes state ts os s (tr1 ++ (o, ev) :: tr2) ->
  ELock rid (Granted b) ∈ ev ->
  exists tn k, v_req (view_of (view0 state ts) (tr1 ++ [(o, ev)])) !! rid = Some (tn, k) /\
    b = lookup_store (v_store (view_of (view0 state ts) (tr1 ++ [(o, ev)]))) k.
Proof. exact (grant_is_current state ts os s tr1 o ev tr2 rid b). Qed.
Print Assumptions C36_grant_is_current.

(** When a commit succeeds, every value its ticket was ever given is still the value of
    the store: the ticket could have run alone at that moment. *)
Theorem C36_serializable state ts os s tr1 tn ev tr2 k b :
  NoDup (issued os) -> executes state ts os s (tr1 ++ (OCommit tn, ev) :: tr2) ->
  succeeded ev = true ->
  v_got (view_of (view0 state ts) tr1) !! (tn, k) = Some b ->
  b = lookup_store (v_store (view_of (view0 state ts) tr1)) k.
Proof. exact (serializable state ts os s tr1 tn ev tr2 k b). Qed.
Print Assumptions C36_serializable.

(** A locked value changes only by the holder's own commit. *)
Theorem C36_locked_value_stable s o s' ev a k m :
  reachable s -> holds s a k m -> step s o = Done (s', ev) -> o <> OCommit a ->
  e_val (el s' k) = e_val (el s k).
Proof. exact (locked_value_stable s o s' ev a k m). Qed.
Print Assumptions C36_locked_value_stable.

Example C36_nonvacuous : NoDup (issued ops2) /\
  exists s tr1 ev tr2, executes ∅ ∅ ops2 s (tr1 ++ (OCommit 2, ev) :: tr2) /\
  succeeded ev = true /\ v_got (view_of (view0 ∅ ∅) tr1) !! (2, 1) = Some [7] /\
  ELock 104 (Granted [8; 8]) ∈ ev.
Proof. exact (conj ops2_issued ops2_split). Qed.

(** ** C37 *)

(** No request is answered twice; every request is answered or waits, never both. *)
Theorem C37_answered_once state ts os s tr :
  NoDup (issued os) -> executes state ts os s tr ->
  NoDup (answered tr) /\
  (forall rid, rid ∈ issued os <-> rid ∈ answered tr \/ waiting s rid) /\
  (forall rid, rid ∈ answered tr -> ~ waiting s rid).
Proof. exact (answered_once state ts os s tr). Qed.
Print Assumptions C37_answered_once.

(** What waits is what was asked for. *)
Theorem C37_waits_as_asked state ts os s tr tn k m rid :
  executes state ts os s tr -> waits s tn k m rid ->
  exists br f, OTryLock rid tn br k m f ∈ os.
Proof. exact (waits_as_asked state ts os s tr tn k m rid). Qed.
Print Assumptions C37_waits_as_asked.

Example C37_nonvacuous : NoDup (issued ops1) /\ exists s tr, executes ∅ ∅ ops1 s tr /\ waiting s 103.
Proof.
  split; [exact ops1_issued|]. destruct ops1_run as (s & tr & He & _ & _ & _ & _ & W & _).
  exists s, tr. split; [exact He|]. exists 2, 1, Write. exact W.
Qed.

(** ** C54 *)

(** No request makes the shard run into undefined behaviour, a failed assertion or an
    endless loop; it ends the process only for a first lock of a ticket it knows. *)
Theorem C54_never_undefined s o :
  reachable s ->
  (exists s' ev, step s o = Done (s', ev)) \/
  (step s o = Fatal /\ exists rid tn br k m t, o = OTryLock rid tn br k m true /\ s_tk s !! tn = Some t).
Proof. exact (never_undefined s o). Qed.
Print Assumptions C54_never_undefined.

(** It does end the process then. *)
Theorem C54_never_exits_refuted : exists s o, reachable s /\ step s o = Fatal.
Proof. exact first_twice. Qed.
Print Assumptions C54_never_exits_refuted.
