(** C83: a transaction handed to a two-phase coordinator is answered once, with its result. *)
From stdpp Require Import base option list.
From Coq Require Import NArith.
From Verif Require Import CoordBatchModel CoordBatchSpec CoordBatchProofs CoordBatchExamples.
Open Scope nat_scope.

(** Every request is accepted, refused or being looked at. *)
Theorem C83_taken_or_not batch_size max_threads s k :
  reachable batch_size max_threads s -> k < length (c_reqs s) ->
  k ∈ c_accepted s \/ k ∈ c_refused s \/
  exists tx, c_handler s = HWant tx k \/ c_handler s = HAsleep tx k.
Proof. exact (taken_or_not batch_size max_threads s k). Qed.
Print Assumptions C83_taken_or_not.

(** One that is accepted was answered once, or is in one batch and will be, or its coordinator
    was stopped before its batch ran. *)
Theorem C83_answered_once_partial batch_size max_threads s k :
  reachable batch_size max_threads s -> k ∈ c_accepted s ->
  (times_answered k s = 1 /\ ~ under_way k s /\ k ∉ c_lost s) \/
  (times_answered k s = 0 /\ under_way k s /\ k ∉ c_lost s) \/
  (times_answered k s = 0 /\ ~ under_way k s /\ k ∈ c_lost s).
Proof. exact (answered_once batch_size max_threads s k). Qed.
Print Assumptions C83_answered_once_partial.

(** One that is refused gets no other answer. *)
Theorem C83_refused_is_final batch_size max_threads s k a :
  reachable batch_size max_threads s -> (k, a) ∈ c_answers s ->
  k ∈ c_accepted s /\ k ∉ c_refused s.
Proof. exact (only_accepted batch_size max_threads s k a). Qed.
Print Assumptions C83_refused_is_final.

(** The answer is what a batch that ended said about that transaction, or that the batch ended
    without a result. *)
Theorem C83_own_result batch_size max_threads s k a :
  reachable batch_size max_threads s -> (k, a) ∈ c_answers s ->
  exists tx txs res i, c_reqs s !! k = Some tx /\ (txs, res) ∈ c_done s /\ txs !! i = Some tx /\
    match res with Some l => length l = length txs /\ a = l !! i | None => a = None end.
Proof. exact (told_true batch_size max_threads s k a). Qed.
Print Assumptions C83_own_result.

(** No batch is larger than configured or has a transaction twice. *)
Theorem C83_batches batch_size max_threads s : reachable batch_size max_threads s ->
  Forall (fun d : list N * option (list bool) => NoDup (fst d) /\ length (fst d) <= batch_size)
    (c_done s) /\
  Forall (fun b => NoDup (b_txs b) /\ length (b_txs b) <= batch_size) (c_cur s :: c_work s).
Proof. exact (batches_fit batch_size max_threads s). Qed.
Print Assumptions C83_batches.
Example C83_run_example : exists s, c_moves 3 3 coord_init ex_moves = Some s /\
  c_stop s = SRun /\
  c_reqs s = [7; 8; 7; 7]%N /\ c_accepted s = [0; 1; 3] /\ c_refused s = [2] /\
  c_answers s = [(0, Some true); (1, Some false); (3, None)] /\
  c_done s = [([7; 8]%N, Some [true; false]); ([7]%N, None)] /\
  map (fun k => times_answered k s) [0; 1; 2; 3] = [1; 1; 0; 1].
Proof. exact run_case. Qed.

(** No wake-up is lost while the coordinator runs: without new requests its threads come to
    rest after a bounded number of steps, in whatever order, and then everything that was
    accepted since the start has been answered and the next request can be taken. *)
Theorem C83_all_answered batch_size max_threads s :
  0 < batch_size -> 0 < max_threads ->
  reachable batch_size max_threads s -> c_stop s = SRun -> exists n,
  forall l s', Forall internal l -> c_moves batch_size max_threads s l = Some s' ->
    length l <= n /\
    (quiet batch_size max_threads s' -> c_handler s' = HIdle /\
       forall k, k ∈ c_accepted s' -> times_answered k s' = 1 \/ k ∈ c_lost s).
Proof. exact (fun Hb Hm => all_answered batch_size max_threads Hb Hm s). Qed.
Print Assumptions C83_all_answered.
Example C83_all_answered_example : exists s,
  reachable 3 3 s /\ c_stop s = SRun /\ 3 ∈ c_accepted s.
Proof. exact run_reachable. Qed.

(** A coordinator that is told to stop does, unless the handler sleeps for lack of space. *)
Theorem C83_stop_ends_partial batch_size max_threads s :
  0 < max_threads ->
  reachable batch_size max_threads s -> c_stop s <> SRun ->
  (forall tx r, c_handler s = HAsleep tx r -> exists b, c_exec s = ENotify b) ->
  exists n, forall l s', Forall internal l -> c_moves batch_size max_threads s l = Some s' ->
    length l <= n /\ (quiet batch_size max_threads s' -> c_stop s' = SStopped).
Proof. exact (fun Hm => stop_ends batch_size max_threads Hm s). Qed.
Print Assumptions C83_stop_ends_partial.
Example C83_stop_example : exists s, reachable 3 3 s /\ c_stop s <> SRun /\
  (forall tx r, c_handler s = HAsleep tx r -> exists b, c_exec s = ENotify b) /\
  c_stop s = SClose /\ c_work s <> [].
Proof. exact stop_case. Qed.

(** ** What does not hold *)
(** stop() waits for the handler thread before it wakes it: with a full batch a coordinator
    that is no longer the leader never stops, and never leads again; what it had collected is
    never answered. *)
Theorem C83_stop_hangs_refuted : exists s, reachable 1 1 s /\ c_stop s = SClose /\
  quiet 1 1 s /\ 2 ∈ c_accepted s /\ times_answered 2 s = 0.
Proof. exact hang_case. Qed.
Print Assumptions C83_stop_hangs_refuted.
(** An accepted transaction whose batch has not begun when the coordinator stops is forgotten
    without an answer, although the coordinator is started again. *)
Theorem C83_answered_refuted : exists s, reachable 2 1 s /\ c_stop s = SRun /\
  0 ∈ c_accepted s /\ 0 ∈ c_lost s /\ times_answered 0 s = 0.
Proof. exact lost_case. Qed.
Print Assumptions C83_answered_refuted.
(** The options are not checked: without room in a batch, or without a thread, a coordinator
    stands still with the first transaction. *)
Theorem C83_no_room_refuted : exists s, reachable 0 1 s /\ c_stop s = SRun /\ quiet 0 1 s /\
  c_handler s = HAsleep 1 0.
Proof. exact no_room_case. Qed.
Print Assumptions C83_no_room_refuted.
Theorem C83_no_thread_refuted : exists s, reachable 1 0 s /\ c_stop s = SRun /\ quiet 1 0 s /\
  0 ∈ c_accepted s /\ times_answered 0 s = 0.
Proof. exact no_thread_case. Qed.
Print Assumptions C83_no_thread_refuted.
