(** C12, C13, C14, C19: the locking shard of the two-phase-commit architecture.
    The vocabulary is in LockingShardSpec.v: [history] reads a list of requests
    and answers as events; [holding], [unspent], [times_spent], [times_created]
    are functions of these events only. *)
From Coq Require Import NArith List Bool Arith.
From stdpp Require Import base decidable list gmap.
From Verif Require Import Base CodecModel TxModel CacheModel CacheProofs
  LockingShardModel LockingShardSpec LockingShardProofs LockingShardCorollaries
  LockingShardExamples.
Import ListNotations.
Open Scope N_scope.

(** C12. Missing for the full claim: the shard itself does not enforce
    [no_conflicting_cancel] (see the refutations below). [completes_locked] is
    what coordinators guarantee (P_TwoPhase.v). *)
Theorem C12_no_double_spend_partial c preseed cache rqs s rps x :
  reaches c preseed cache rqs s rps -> in_range (sc_range c) x = true ->
  completes_locked (history rqs rps) ->
  no_conflicting_cancel (sc_range c) (history rqs rps) ->
  (times_spent (sc_range c) x (history rqs rps)
   <= (if bool_decide (x ∈ preseed) then 1 else 0)
      + times_created (sc_range c) x (history rqs rps))%nat.
Proof. exact (no_double_spend c preseed cache rqs s rps x). Qed.
Print Assumptions C12_no_double_spend_partial.

Theorem C12_respend_needs_creation_partial
    c preseed cache rqs s rps e1 d i t e2 d' i' t' e3 x :
  reaches c preseed cache rqs s rps ->
  completes_locked (history rqs rps) ->
  no_conflicting_cancel (sc_range c) (history rqs rps) ->
  fresh_outputs (sc_range c) preseed (history rqs rps) ->
  history rqs rps = e1 ++ Completed d i t :: e2 ++ Locked d' i' t' :: e3 ->
  spends (sc_range c) t x = true -> spends (sc_range c) t' x = true ->
  exists f1 d'' i'' t'' f2,
    e2 = f1 ++ Completed d'' i'' t'' :: f2 /\ creates (sc_range c) t'' x = true.
Proof. exact (respend_needs_creation c preseed cache rqs s rps e1 d i t e2 d' i' t' e3 x). Qed.
Print Assumptions C12_respend_needs_creation_partial.

(** The answer to a lock request is exact: true iff the attestations suffice and
    every input owned by the shard is unspent and held by nobody. *)
Theorem C12_lock_decision_partial c preseed cache rqs s rps e1 d i t e2 :
  reaches c preseed cache rqs s rps ->
  completes_locked (history rqs rps) ->
  no_conflicting_cancel (sc_range c) (history rqs rps) ->
  fresh_outputs (sc_range c) preseed (history rqs rps) ->
  (history rqs rps = e1 ++ Locked d i t :: e2 ->
   sc_attested c t = true /\
   forall x, spends (sc_range c) t x = true ->
     unspent (sc_range c) preseed e1 x = true /\
     forall d' i' t', In (d', i', t') (holding e1) -> spends (sc_range c) t' x = false) /\
  (history rqs rps = e1 ++ Refused d i t :: e2 ->
   sc_attested c t = false \/
   exists x, spends (sc_range c) t x = true /\
     (unspent (sc_range c) preseed e1 x = false \/
      exists d' i' t', In (d', i', t') (holding e1) /\ spends (sc_range c) t' x = true)).
Proof. exact (lock_decision c preseed cache rqs s rps e1 d i t e2). Qed.
Print Assumptions C12_lock_decision_partial.

(** The status query for a UHS ID answers what the completed transactions leave
    unspent: no ID is lost or conjured. *)
Theorem C12_check_unspent_exact_partial c preseed cache rqs s rps x :
  reaches c preseed cache rqs s rps -> in_range (sc_range c) x = true ->
  completes_locked (history rqs rps) ->
  no_conflicting_cancel (sc_range c) (history rqs rps) ->
  fresh_outputs (sc_range c) preseed (history rqs rps) ->
  check_unspent s x = unspent (sc_range c) preseed (history rqs rps) x.
Proof. exact (check_unspent_exact c preseed cache rqs s rps x). Qed.
Print Assumptions C12_check_unspent_exact_partial.

(** Finding: without that rule the shard lets one UHS ID be spent twice, although
    every transaction completed was locked and no ID is created twice. *)
Theorem C12_no_double_spend_refuted :
  exists c preseed cache rqs s rps x,
    reaches c preseed cache rqs s rps /\ in_range (sc_range c) x = true /\
    completes_locked (history rqs rps) /\
    fresh_outputs (sc_range c) preseed (history rqs rps) /\
    times_created (sc_range c) x (history rqs rps) = 0%nat /\
    times_spent (sc_range c) x (history rqs rps) = 2%nat.
Proof.
  destruct (run_check ex_cfg ex_seed 100 double_spend (spent_twice double_spend))
    as (s & rps & H & P); [vm_compute; reflexivity|].
  unfold spent_twice in P. rewrite !andb_true_iff, !Nat.eqb_eq in P.
  destruct P as [[[P1 P2] P3] P4].
  exists ex_cfg, ex_seed, 100, double_spend, s, rps, 10.
  split; [exact H|]. split; [vm_compute; reflexivity|].
  split; [now apply completes_locked_check|]. split; [now apply fresh_check|].
  split; assumption.
Qed.
Print Assumptions C12_no_double_spend_refuted.

(** Finding: the same inside a single distributed transaction. *)
Theorem C12_one_batch_refuted :
  exists c preseed cache rqs s rps x,
    reaches c preseed cache rqs s rps /\ in_range (sc_range c) x = true /\
    completes_locked (history rqs rps) /\
    fresh_outputs (sc_range c) preseed (history rqs rps) /\
    times_created (sc_range c) x (history rqs rps) = 0%nat /\
    times_spent (sc_range c) x (history rqs rps) = 2%nat.
Proof.
  destruct (run_check ex_cfg ex_seed 100 double_spend_batch (spent_twice double_spend_batch))
    as (s & rps & H & P); [vm_compute; reflexivity|].
  unfold spent_twice in P. rewrite !andb_true_iff, !Nat.eqb_eq in P.
  destruct P as [[[P1 P2] P3] P4].
  exists ex_cfg, ex_seed, 100, double_spend_batch, s, rps, 10.
  split; [exact H|]. split; [vm_compute; reflexivity|].
  split; [now apply completes_locked_check|]. split; [now apply fresh_check|].
  split; assumption.
Qed.
Print Assumptions C12_one_batch_refuted.

(** A history that meets the hypotheses of the theorems above. *)
Example C12_hypotheses_met :
  exists s rps, reaches ex_cfg ex_seed 100 good_history s rps /\
    completes_locked (history good_history rps) /\
    no_conflicting_cancel (sc_range ex_cfg) (history good_history rps) /\
    fresh_outputs (sc_range ex_cfg) ex_seed (history good_history rps) /\
    history good_history rps = good_events /\
    times_spent (0, 255) 10 (history good_history rps) = 1%nat /\
    check_unspent s 24 = true /\ check_unspent s 10 = false.
Proof.
  destruct (run_check ex_cfg ex_seed 100 good_history good_check)
    as (s & rps & H & P); [vm_compute; reflexivity|].
  unfold good_check, rules_met in P.
  rewrite !andb_true_iff, Nat.eqb_eq, bool_decide_eq_true, negb_true_iff in P.
  destruct P as [[[[[[P1 P2] P3] P4] P5] P6] P7].
  exists s, rps. split; [exact H|]. split; [now apply completes_locked_check|].
  split; [now apply no_conflict_check|]. split; [now apply fresh_check|]. auto.
Qed.

(** C13: whatever the callers do, a locked UHS ID is an input of a transaction
    that was locked and neither completed nor cancelled since; its distributed
    transaction is prepared. *)
Theorem C13_locked_owned c preseed cache rqs s rps x :
  reaches c preseed cache rqs s rps -> x ∈ sh_locked s ->
  exists d i t, In (d, i, t) (holding (history rqs rps)) /\
    spends (sc_range c) t x = true.
Proof. exact (locked_owned c preseed cache rqs s rps x). Qed.
Print Assumptions C13_locked_owned.
Theorem C13_holder_is_prepared c preseed cache rqs s rps d i t :
  reaches c preseed cache rqs s rps ->
  In (d, i, t) (holding (history rqs rps)) <->
  exists p, sh_prepared s !! d = Some p /\ nth_error (pd_txs p) i = Some t /\
    nth_error (pd_results p) i = Some true.
Proof. exact (holding_is_prepared c preseed cache rqs s rps d i t). Qed.
Print Assumptions C13_holder_is_prepared.

(** Disjointness. Missing: the shard does not refuse to create an ID that is
    locked. *)
Theorem C13_disjoint_partial c preseed cache rqs s rps :
  reaches c preseed cache rqs s rps ->
  (forall e1 d i t e2 x d' i' t',
     history rqs rps = e1 ++ Completed d i t :: e2 ->
     creates (sc_range c) t x = true -> In (d', i', t') (holding e1) ->
     spends (sc_range c) t' x = false) ->
  sh_uhs s ## sh_locked s.
Proof. exact (spendable_locked_disjoint c preseed cache rqs s rps). Qed.
Print Assumptions C13_disjoint_partial.

(** Under the rules of C12 two different transactions never hold one UHS ID. *)
Theorem C13_held_once_partial c preseed cache rqs s rps x d i t d' i' t' :
  reaches c preseed cache rqs s rps ->
  completes_locked (history rqs rps) ->
  no_conflicting_cancel (sc_range c) (history rqs rps) ->
  fresh_outputs (sc_range c) preseed (history rqs rps) ->
  In (d, i, t) (holding (history rqs rps)) ->
  In (d', i', t') (holding (history rqs rps)) ->
  spends (sc_range c) t x = true -> spends (sc_range c) t' x = true ->
  (d', i') = (d, i) /\ t' = t.
Proof. exact (held_once c preseed cache rqs s rps x d i t d' i' t'). Qed.
Print Assumptions C13_held_once_partial.

(** Finding: an inputless transaction that creates a locked UHS ID puts it in
    both sets. *)
Theorem C13_disjoint_refuted :
  exists c preseed cache rqs s rps,
    reaches c preseed cache rqs s rps /\ completes_locked (history rqs rps) /\
    no_conflicting_cancel (sc_range c) (history rqs rps) /\
    exists x, x ∈ sh_uhs s /\ x ∈ sh_locked s.
Proof.
  destruct (run_check ex_cfg ex_seed 100 remint (fun s rps =>
      completes_locked_b (history remint rps) && no_conflict_b (0, 255) (history remint rps)
      && bool_decide (10 ∈ sh_uhs s) && bool_decide (10 ∈ sh_locked s)))
    as (s & rps & H & P); [vm_compute; reflexivity|].
  rewrite !andb_true_iff, !bool_decide_eq_true in P. destruct P as [[[P1 P2] P3] P4].
  exists ex_cfg, ex_seed, 100, remint, s, rps. split; [exact H|].
  split; [now apply completes_locked_check|]. split; [now apply no_conflict_check|].
  exists 10. split; assumption.
Qed.
Print Assumptions C13_disjoint_refuted.

(** C14. Between a request and its repetition anything may happen, except the
    next phase of the same distributed transaction. *)
Theorem C14_lock_retry c s d txs s1 oks rqs s2 rps txs' :
  sh_running s = true ->
  process_request c s (RLock d txs) = Done (s1, ALock oks) ->
  run_shard c s1 rqs = Done (s2, rps) ->
  (forall q, In q rqs -> ~ is_apply d q) ->
  process_request c s2 (RLock d txs') = Done (s2, ALock oks).
Proof. exact (lock_retry c s d txs s1 oks rqs s2 rps txs'). Qed.
Print Assumptions C14_lock_retry.
Theorem C14_apply_retry c s d flags s1 rqs s2 rps flags' :
  sh_running s = true ->
  process_request c s (RApply d flags) = Done (s1, AApply) ->
  run_shard c s1 rqs = Done (s2, rps) ->
  (forall q, In q rqs -> ~ is_lock d q /\ ~ is_discard d q) ->
  process_request c s2 (RApply d flags') = Done (s2, AApply).
Proof. exact (apply_retry c s d flags s1 rqs s2 rps flags'). Qed.
Print Assumptions C14_apply_retry.
Theorem C14_discard_retry c s d s1 :
  sh_running s = true ->
  process_request c s (RDiscard d) = Done (s1, ADiscard) ->
  process_request c s1 (RDiscard d) = Done (s1, ADiscard) /\
  sh_uhs s1 = sh_uhs s /\ sh_locked s1 = sh_locked s /\
  sh_prepared s1 = sh_prepared s /\ sh_completed s1 = sh_completed s.
Proof. exact (discard_retry c s d s1). Qed.
Print Assumptions C14_discard_retry.

(** Finding: a lock request repeated after the apply of a cancelled transaction
    locks its inputs again, and an apply repeated after the discard ends the
    process. A request delayed by the network past the end of its distributed
    transaction has these effects. *)
Theorem C14_late_lock_refuted :
  exists c s d txs oks s' x,
    run_shard c (shard_new ex_seed 100)
      [RLock d txs; RApply d [false]; RDiscard d]
      = Done (s, [ALock oks; AApply; ADiscard]) /\
    x ∈ sh_uhs s /\ sh_locked s = ∅ /\
    process_request c s (RLock d txs) = Done (s', ALock oks) /\
    x ∉ sh_uhs s' /\ x ∈ sh_locked s'.
Proof.
  destruct (run_check ex_cfg ex_seed 100 late_lock late_check)
    as (s & rps & H & P); [vm_compute; reflexivity|].
  unfold late_check in P.
  destruct (process_request ex_cfg s (RLock 100 [tA])) as [[s' rp]| |] eqn:E;
    [|rewrite andb_false_r in P; discriminate..].
  rewrite !andb_true_iff, !bool_decide_eq_true in P.
  destruct P as [[[P1 P2] P3] [[P4 P5] P6]]. subst.
  exists ex_cfg, s, 100, [tA], [true], s', 10. split; [exact H|]. auto.
Qed.
Print Assumptions C14_late_lock_refuted.
Theorem C14_late_apply_refuted :
  exists c d txs flags,
    run_shard c (shard_new ex_seed 100)
      [RLock d txs; RApply d flags; RDiscard d; RApply d flags] = Fatal.
Proof. exists ex_cfg, 100, [tA], [true]. vm_compute. reflexivity. Qed.
Print Assumptions C14_late_apply_refuted.

Example C14_example :
  match run_shard ex_cfg (shard_new ex_seed 100) good_history with
  | Done (_, rps) =>
      rps = [ALock [true; false]; ALock [true; false]; AApply; AApply; ADiscard;
             ALock [false]; AApply; ALock [true]; ALock [false]; AApply; AApply;
             ADiscard; ADiscard]
  | _ => False
  end.
Proof. vm_compute. reflexivity. Qed.

(** C19. Missing: a cancelled transaction is also confirmed (refuted below). *)
Theorem C19_confirms_finished_partial c preseed cache rqs s rps x :
  reaches c preseed cache rqs s rps -> check_tx_id s x = true ->
  exists d i t,
    (In (Completed d i t) (history rqs rps) \/ In (Cancelled d i t) (history rqs rps))
    /\ ctx_id t = x.
Proof. exact (check_tx_id_finished c preseed cache rqs s rps x). Qed.
Print Assumptions C19_confirms_finished_partial.

(** The answers are those of a bounded cache (C43) fed with the IDs of the
    applied transactions in order. *)
Theorem C19_answers_from_recent c preseed cache rqs s rps x :
  reaches c preseed cache rqs s rps ->
  check_tx_id s x
  = cache_contains (fst (cache_adds (cache_new cache)
      (finished_ids (sc_range c) (history rqs rps)))) x.
Proof. exact (check_tx_id_cache c preseed cache rqs s rps x). Qed.
Print Assumptions C19_answers_from_recent.

(** Finding: a transaction that was refused and cancelled everywhere is reported
    as confirmed. *)
Theorem C19_only_completed_refuted :
  exists c preseed cache rqs s rps x,
    reaches c preseed cache rqs s rps /\ check_tx_id s x = true /\
    forall d i t, In (Completed d i t) (history rqs rps) -> ctx_id t <> x.
Proof.
  destruct (run_check ex_cfg ex_seed 100 [RLock 200 [ex_tx 2 [99] [22]]; RApply 200 [false]]
      (fun s rps => check_tx_id s 2 && bool_decide (rps = [ALock [false]; AApply])))
    as (s & rps & H & P); [vm_compute; reflexivity|].
  rewrite andb_true_iff, bool_decide_eq_true in P. destruct P as [P1 ->].
  exists ex_cfg, ex_seed, 100, [RLock 200 [ex_tx 2 [99] [22]]; RApply 200 [false]],
    s, [ALock [false]; AApply], 2.
  split; [exact H|]. split; [exact P1|]. intros d i t. vm_compute. intuition discriminate.
Qed.
Print Assumptions C19_only_completed_refuted.
