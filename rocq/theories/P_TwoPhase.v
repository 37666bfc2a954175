(** C15, C16, C17, C18 and C12 at the level of the whole two-phase-commit system:
    locking shards, coordinators, their replicated state, lost answers, crashes
    and recoveries in any order. The vocabulary is in TwoPhaseSpec.v and
    LockingShardSpec.v: [sent cfgs B i j k t] says that shard [i] gets
    transaction [t], the [k]th of batch [B], as its [j]th; [events_at s i] is
    what the requests and answers of shard [i] say. *)
From Coq Require Import NArith List Bool Arith.
From stdpp Require Import base decidable list gmap.
From Verif Require Import Base CodecModel TxModel CacheModel LockingShardModel
  LockingShardSpec LockingShardProofs LockingShardCorollaries LockingShardExamples
  TwoPhaseModel TwoPhaseSpec TwoPhaseNode TwoPhaseProofs TwoPhaseCorollaries TwoPhaseRanges
  TwoPhaseRecovery TwoPhaseFinal TwoPhaseExamples.
Import ListNotations.
Open Scope N_scope.

(** ** C15 *)

(** No transaction is completed on one shard and cancelled on another, at any
    moment of any schedule. *)
Theorem C15_atomic cfgs preseeds cache s d B i j i' j' k t t' :
  reachable cfgs preseeds cache s -> sy_batches s !! d = Some B ->
  sent cfgs B i j k t -> sent cfgs B i' j' k t' ->
  In (Completed d j t) (events_at s i) -> ~ In (Cancelled d j' t') (events_at s i').
Proof. exact (final_atomic cfgs preseeds cache s d B i j i' j' k t t'). Qed.
Print Assumptions C15_atomic.

(** What is completed somewhere was locked by every shard that got it. *)
Theorem C15_completed_all_locked cfgs preseeds cache s d B i j k t :
  reachable cfgs preseeds cache s -> sy_batches s !! d = Some B -> sent cfgs B i j k t ->
  In (Completed d j t) (events_at s i) ->
  forall i' j' t', sent cfgs B i' j' k t' -> In (Locked d j' t') (events_at s i').
Proof. exact (final_completed_all_locked cfgs preseeds cache s d B i j k t). Qed.
Print Assumptions C15_completed_all_locked.

(** What is cancelled somewhere was refused by one of them. *)
Theorem C15_cancelled_some_refused cfgs preseeds cache s d B i j k t :
  reachable cfgs preseeds cache s -> sy_batches s !! d = Some B -> sent cfgs B i j k t ->
  In (Cancelled d j t) (events_at s i) ->
  exists i' j' t', sent cfgs B i' j' k t' /\ In (Refused d j' t') (events_at s i').
Proof. exact (final_cancelled_some_refused cfgs preseeds cache s d B i j k t). Qed.
Print Assumptions C15_cancelled_some_refused.

(** When the client has its answer, every shard has done what it says. *)
Theorem C15_answer cfgs preseeds cache s d A :
  reachable cfgs preseeds cache s -> sy_answers s !! d = Some A ->
  exists B, sy_batches s !! d = Some B /\ length A = length B /\
    forall i j k t, sent cfgs B i j k t ->
      exists b : bool, A !! k = Some b /\
        In (if b then Completed d j t else Cancelled d j t) (events_at s i).
Proof. exact (final_answer cfgs preseeds cache s d A). Qed.
Print Assumptions C15_answer.

(** Shards see no transaction that was not sent to them. *)
Theorem C15_events_only_sent cfgs preseeds cache s i d j t :
  reachable cfgs preseeds cache s ->
  In (Locked d j t) (events_at s i) \/ In (Refused d j t) (events_at s i) \/
  In (Completed d j t) (events_at s i) \/ In (Cancelled d j t) (events_at s i) ->
  exists B k, sy_batches s !! d = Some B /\ sent cfgs B i j k t.
Proof. exact (final_only_sent cfgs preseeds cache s i d j t). Qed.
Print Assumptions C15_events_only_sent.

(** Nothing is locked, refused, completed or cancelled twice, although requests
    are repeated. *)
Theorem C15_events_once cfgs preseeds cache s i :
  reachable cfgs preseeds cache s -> List.NoDup (events_at s i).
Proof. exact (final_once cfgs preseeds cache s i). Qed.
Print Assumptions C15_events_once.

(** Example: two shards, two batches; the client of the first is told that both
    its transactions are complete, and they are, on every shard that got them. *)
Example C15_case :
  exists s, reachable ex2 ex2_seeds 100 s /\
    sy_answers s !! 1 = Some [true; true] /\ sy_answers s !! 2 = Some [false] /\
    sy_batches s !! 1 = Some [tX; tZ] /\
    In (Completed 1 0 tX) (events_at s 0) /\ In (Completed 1 0 tX) (events_at s 1) /\
    In (Completed 1 1 tZ) (events_at s 1) /\ In (Refused 2 0 tY) (events_at s 0) /\
    In (Cancelled 2 0 tY) (events_at s 0).
Proof.
  destruct (sys_check ex2 ex2_seeds 100 ex2_plain (fun s =>
    bool_decide (sy_answers s !! 1 = Some [true; true]) &&
    bool_decide (sy_answers s !! 2 = Some [false]) &&
    bool_decide (sy_batches s !! 1 = Some [tX; tZ]) &&
    bool_decide (Completed 1 0 tX ∈ events_at s 0) &&
    bool_decide (Completed 1 0 tX ∈ events_at s 1) &&
    bool_decide (Completed 1 1 tZ ∈ events_at s 1) &&
    bool_decide (Refused 2 0 tY ∈ events_at s 0) &&
    bool_decide (Cancelled 2 0 tY ∈ events_at s 0))) as (s & H & P);
    [vm_compute; reflexivity|].
  rewrite !andb_true_iff, !bool_decide_eq_true, !elem_of_list_In in P.
  destruct P as [[[[[[[P1 P2] P3] P4] P5] P6] P7] P8].
  exists s. split; [split; [reflexivity|eauto]|].
  repeat (split; [assumption|]). assumption.
Qed.

(** ** C12 in the system *)

(** Missing for the full claim: as in P_LockingShard.v, [no_conflicting_cancel].
    That only locked transactions are completed is proved here. *)
Theorem C12_system_no_double_spend_partial cfgs preseeds cache s i c p x :
  reachable cfgs preseeds cache s -> cfgs !! i = Some c -> preseeds !! i = Some p ->
  in_range (sc_range c) x = true ->
  no_conflicting_cancel (sc_range c) (events_at s i) ->
  (times_spent (sc_range c) x (events_at s i)
   <= (if bool_decide (x ∈ p) then 1 else 0)
      + times_created (sc_range c) x (events_at s i))%nat.
Proof. exact (final_no_double_spend cfgs preseeds cache s i c p x). Qed.
Print Assumptions C12_system_no_double_spend_partial.

Theorem C12_system_completes_locked cfgs preseeds cache s i :
  reachable cfgs preseeds cache s -> completes_locked (events_at s i).
Proof. exact (final_completes_locked cfgs preseeds cache s i). Qed.
Print Assumptions C12_system_completes_locked.

(** Finding: the complete protocol, without crash, lost answer or duplicated
    input, confirms two transactions that spend the same UHS ID. *)
Theorem C12_system_no_double_spend_refuted :
  exists cfgs preseeds cache s x tA tC d1 d2,
    reachable_proper cfgs preseeds cache s /\
    sy_batches s !! d1 = Some [tA] /\ sy_batches s !! d2 = Some [tC] /\
    ctx_id tA <> ctx_id tC /\ In x (ctx_inputs tA) /\ In x (ctx_inputs tC) /\
    sy_answers s !! d1 = Some [true] /\ sy_answers s !! d2 = Some [true] /\
    times_created (0, 255) x (events_at s 0) = 0%nat /\
    times_spent (0, 255) x (events_at s 0) = 2%nat.
Proof.
  destruct (sys_check [ex_cfg] [ex_seed] 100 sys_double_spend (fun s =>
    double_spend_b s && bool_decide (sy_batches s !! 100 = Some [tA]) &&
    bool_decide (sy_batches s !! 300 = Some [tC]))) as (s & H & P);
    [vm_compute; reflexivity|].
  unfold double_spend_b in P.
  rewrite !andb_true_iff, !bool_decide_eq_true, !Nat.eqb_eq in P.
  destruct P as [[[[[[P1 P2] P3] P4] P5] P6] P7].
  exists [ex_cfg], [ex_seed], 100, s, 10, tA, tC, 100, 300.
  split; [split; [reflexivity|]; exists sys_double_spend; split;
          [apply proper_check; vm_compute; reflexivity|exact H]|].
  split; [exact P6|]. split; [exact P7|]. split; [discriminate|].
  split; [now left|]. split; [now left|]. auto.
Qed.
Print Assumptions C12_system_no_double_spend_refuted.

(** ** C16 *)

(** Whatever happens after the decision is recorded, no shard does otherwise. *)
Theorem C16_decision_stable cfgs preseeds cache s ls s' d C idxs B i j k t :
  reachable cfgs preseeds cache s ->
  rs_commit (sy_rsm s) !! d = Some (C, idxs) -> sy_batches s !! d = Some B ->
  run cfgs s ls = SOk s' -> sent cfgs B i j k t ->
  (In (Completed d j t) (events_at s' i) -> C !! k = Some true) /\
  (In (Cancelled d j t) (events_at s' i) -> C !! k = Some false).
Proof. exact (final_decision_stable cfgs preseeds cache s ls s' d C idxs B i j k t). Qed.
Print Assumptions C16_decision_stable.

(** From every state in which the coordinator of [d] may crash, another one
    completes [d]: every shard does what the recorded decision says, or, if none
    was recorded, what one decision for all shards says. *)
Theorem C16_recovery_completes cfgs preseeds cache s d :
  reachable_proper cfgs preseeds cache s -> in_progress s d ->
  exists B s' C, sy_batches s !! d = Some B /\
    run cfgs s (takeover (length cfgs) d) = SOk s' /\ ~ in_progress s' d /\
    (forall C0 ks, rs_commit (sy_rsm s) !! d = Some (C0, ks) -> C = C0) /\
    length C = length B /\
    forall i j k t, sent cfgs B i j k t -> exists b : bool, C !! k = Some b /\
       In (if b then Completed d j t else Cancelled d j t) (events_at s' i).
Proof. exact (final_recovers cfgs preseeds cache s d). Qed.
Print Assumptions C16_recovery_completes.

(** Any number of crashes, lost answers and partial executions of [d] leave the
    shards with the ledgers that one uninterrupted execution gives. Missing for
    the full claim: the shards' memory of applied IDs, see the refutation. *)
Theorem C16_same_ledgers_partial cfgs preseeds cache s d x s1 ls s2 :
  reachable_proper cfgs preseeds cache s -> in_progress s d ->
  sy_dtx s !! d = Some x ->
  run cfgs s (finish (length cfgs) d) = SOk s1 ->
  Forall (fun l => label_dtx l = d) ls -> run cfgs s ls = SOk s2 -> ~ in_progress s2 d ->
  forall i, ledger s2 i = ledger s1 i.
Proof. exact (final_any_crashes cfgs preseeds cache s d x s1 ls s2). Qed.
Print Assumptions C16_same_ledgers_partial.

(** Finding: the ledgers agree but the whole state of the shard does not. A
    coordinator that recovers in the discard phase contacts no shard, so the
    shard remembers the ID for ever. *)
Theorem C16_same_state_refuted :
  exists cfgs preseeds cache s d x s1 ls s2,
    reachable_proper cfgs preseeds cache s /\ in_progress s d /\
    sy_dtx s !! d = Some x /\
    run cfgs s (finish (length cfgs) d) = SOk s1 /\
    Forall (fun l => label_dtx l = d) ls /\ run cfgs s ls = SOk s2 /\ ~ in_progress s2 d /\
    remembers s1 0 d = false /\ remembers s2 0 d = true.
Proof. exact leak. Qed.
Print Assumptions C16_same_state_refuted.

(** Example: decision recorded, applied on one shard of two, other batch waiting. *)
Example C16_case :
  exists s x s1 s2, reachable_proper ex2 ex2_seeds 100 s /\ in_progress s 1 /\
    sy_dtx s !! 1 = Some x /\
    rs_commit (sy_rsm s) !! 1 = Some ([true; true], [[0; 1]; [0; 1]]%nat) /\
    run ex2 s (finish 2 1) = SOk s1 /\ run ex2 s (takeover 2 1) = SOk s2 /\
    ~ In (Completed 1 0 tX) (events_at s 1) /\ In (Completed 1 0 tX) (events_at s2 1).
Proof. exact recovery_case. Qed.

(** ** C17 *)

(** No schedule makes a state machine, coordinator or shard abort, or read outside
    a vector. Transactions that list an input twice, which sentinels refuse,
    trip an assertion of the shards and are excluded. *)
Theorem C17_never_fatal cfgs preseeds cache ls :
  length preseeds = length cfgs -> List.Forall proper_label ls ->
  exists s, run cfgs (sys_new preseeds cache) ls = SOk s.
Proof. exact (never_fails cfgs preseeds cache ls). Qed.
Print Assumptions C17_never_fatal.

(** With assertions compiled out there is no exception. *)
Theorem C17_never_fatal_release cfgs preseeds cache ls :
  length preseeds = length cfgs -> List.Forall (fun c => sc_asserts c = false) cfgs ->
  exists s, run cfgs (sys_new preseeds cache) ls = SOk s.
Proof. exact (never_fails_release cfgs preseeds cache ls). Qed.
Print Assumptions C17_never_fatal_release.

(** The replicated state machine itself never aborts, whatever the transactions. *)
Theorem C17_coordinator_never_fatal cfgs preseeds cache ls :
  length preseeds = length cfgs ->
  run cfgs (sys_new preseeds cache) ls <> SCoordDown /\
  run cfgs (sys_new preseeds cache) ls <> SUndefined.
Proof. exact (coordinator_never_fatal cfgs preseeds cache ls). Qed.
Print Assumptions C17_coordinator_never_fatal.

Theorem C17_one_phase cfgs preseeds cache s d :
  reachable cfgs preseeds cache s ->
  (rs_prepare (sy_rsm s) !! d <> None ->
     rs_commit (sy_rsm s) !! d = None /\ d ∉ rs_discard (sy_rsm s)) /\
  (rs_commit (sy_rsm s) !! d <> None -> d ∉ rs_discard (sy_rsm s)).
Proof. exact (one_phase cfgs preseeds cache s d). Qed.
Print Assumptions C17_one_phase.

(** The protocol's order is needed: commands out of order do abort. *)
Example C17_case :
  rsm_commit rsm_empty (CCommit 1 [] []) = Fatal /\
  rsm_commit rsm_empty (CDiscard 1) = Fatal /\ rsm_commit rsm_empty (CDone 1) = Fatal.
Proof. vm_compute. repeat split. Qed.
Example C17_hypotheses_met :
  List.Forall proper_label ex2_run /\ exists s, run ex2 (sys_new ex2_seeds 100) ex2_run = SOk s.
Proof.
  split; [apply proper_check; vm_compute; reflexivity|].
  destruct (sys_check ex2 ex2_seeds 100 ex2_run (fun _ => true)) as (s & H & _);
    [vm_compute; reflexivity|exists s; exact H].
Qed.
(** Finding: a duplicated input brings a shard with assertions down. *)
Theorem C17_duplicate_input_refuted :
  exists cfgs preseeds cache ls,
    length preseeds = length cfgs /\
    run cfgs (sys_new preseeds cache) ls = SShardDown.
Proof.
  exists [ex_cfg], [ex_seed], 100, [LNew 1 [ex_tx 1 [10; 10] [21]]; LPrepare 1; LLock 1 0 true].
  split; vm_compute; reflexivity.
Qed.
Print Assumptions C17_duplicate_input_refuted.

(** ** C18 *)

Theorem C18_exactly_one_owner rs h :
  contiguous 0 rs 255 -> is_hash h ->
  exists i r, rs !! i = Some r /\ in_range r h = true /\
    forall i' r', rs !! i' = Some r' -> in_range r' h = true -> i' = i.
Proof. exact (one_owner rs h). Qed.
Print Assumptions C18_exactly_one_owner.

(** What the coordinator prepares for shard [i]: the transactions that concern
    its range, in the order of the batch. *)
Theorem C18_part_is_filter rs cl B i r :
  rs !! i = Some r ->
  dx_txs (add_txs rs (dtx_new (length rs) cl) B) !! i
  = Some (List.filter (fun t => bool_decide (concerns r t)) B).
Proof. exact (part_is_filter rs cl B i r). Qed.
Print Assumptions C18_part_is_filter.

Theorem C18_part_index rs cl B i r j k :
  rs !! i = Some r ->
  (exists l, dx_idxs (add_txs rs (dtx_new (length rs) cl) B) !! i = Some l /\ l !! j = Some k)
  <-> exists t, relevant r 0 B !! j = Some (k, t).
Proof. exact (part_index rs cl B i r j k). Qed.
Print Assumptions C18_part_index.

Theorem C18_sent_iff cfgs B i k t :
  (exists j, sent cfgs B i j k t) <->
  exists c, cfgs !! i = Some c /\ B !! k = Some t /\ concerns (sc_range c) t.
Proof. exact (sent_iff cfgs B i k t). Qed.
Print Assumptions C18_sent_iff.

(** The owner of every input, output and ID gets the transaction. *)
Theorem C18_owner_sees cfgs B k t x :
  contiguous 0 (ranges cfgs) 255 -> is_hash x -> B !! k = Some t ->
  x = ctx_id t \/ In x (ctx_inputs t) \/ In x (ctx_outputs t) ->
  exists i j c, cfgs !! i = Some c /\ in_range (sc_range c) x = true /\
    sent cfgs B i j k t.
Proof. exact (owner_sees cfgs B k t x). Qed.
Print Assumptions C18_owner_sees.

Example C18_case : contiguous 0 (ranges ex2) 255 /\ is_hash hi /\
  in_range (0, 127) hi = false /\ in_range (128, 255) hi = true /\
  dx_txs (add_txs (ranges ex2) (dtx_new 2 true) [tX; tY; tZ]) = [[tX; tY; tZ]; [tX; tZ]].
Proof.
  split; [cbn; repeat split; discriminate|]. split; [reflexivity|].
  split; [reflexivity|]. split; [reflexivity|]. vm_compute. reflexivity.
Qed.
