(** Concrete runs of the two-phase-commit system. *)
From Coq Require Import NArith List Bool Lia.
From stdpp Require Import base decidable list gmap.
From Verif Require Import Base CodecModel TxModel CacheModel LockingShardModel
  LockingShardSpec LockingShardProofs LockingShardExamples TwoPhaseModel TwoPhaseSpec
  TwoPhaseNode TwoPhaseProofs TwoPhaseCorollaries TwoPhaseRecovery.
Import ListNotations.
Open Scope N_scope.

Lemma sys_check cfgs preseeds cache ls (P : sys -> bool) :
  match run cfgs (sys_new preseeds cache) ls with SOk s => P s | _ => false end = true ->
  exists s, run cfgs (sys_new preseeds cache) ls = SOk s /\ P s = true.
Proof.
  destruct (run cfgs (sys_new preseeds cache) ls) as [s| | |]; try discriminate. eauto.
Qed.

Lemma nodup_dec_sound (txs : list compact_tx) :
  forallb (fun t => bool_decide (NoDup (ctx_inputs t))) txs = true ->
  List.Forall (fun t => List.NoDup (ctx_inputs t)) txs.
Proof.
  rewrite forallb_forall, List.Forall_forall. intros H t Ht. apply H in Ht.
  apply bool_decide_eq_true in Ht. now apply NoDup_ListNoDup.
Qed.
Definition proper_b (l : label) : bool :=
  match l with
  | LNew _ txs => forallb (fun t => bool_decide (NoDup (ctx_inputs t))) txs
  | _ => true
  end.
Lemma proper_check ls : forallb proper_b ls = true -> List.Forall proper_label ls.
Proof.
  rewrite forallb_forall, List.Forall_forall. intros H l Hl. apply H in Hl.
  destruct l; try done. now apply nodup_dec_sound.
Qed.

(** A shard that owns prefixes [r] and asks for no attestations. *)
Definition ex_cfg_of (r : N * N) : shard_cfg :=
  shard_cfg_of (fun _ => 0) (fun _ => true) (fun _ _ _ => true) [] 0 r true.
(** Two shards; the second one owns [hi] and its neighbours. *)
Definition ex2 : list shard_cfg := [ex_cfg_of (0, 127); ex_cfg_of (128, 255)].
Definition hi : N := 200 * 2 ^ 248.
Definition ex2_seeds : list (gset N) := [ {[10; 11]}; {[hi]} ].
(** Spends on both shards and creates on both. *)
Definition tX := ex_tx 1 [10; hi] [21; hi + 1].
(** Competes for 10. *)
Definition tY := ex_tx 2 [10] [22].
Definition tZ := ex_tx 3 [11] [hi + 2].

(** Two batches interleave; the coordinator of the first crashes after deciding
    and applying on one shard; another one takes over. *)
Definition ex2_before : list label :=
  [LNew 1 [tX; tZ]; LPrepare 1; LNew 2 [tY]; LPrepare 2; LLock 1 0 false; LLock 1 0 true;
   LLock 1 1 true; LDecide 1; LApply 1 0 true].
Definition ex2_run : list label :=
  ex2_before ++ [LCrash 1; LRecover 1] ++ finish 2 1 ++ finish 2 2.

(** Without the crash, so that the client gets its answer. *)
Definition ex2_plain : list label := ex2_before ++ finish 2 1 ++ finish 2 2.

(** The double spend, through the complete protocol. Batches of A, B, C compete
    for 10. A locks it; B is refused and its cancellation releases the lock; C
    locks it; A and C complete and both clients are told so. *)
Definition sys_double_spend : list label :=
  [LNew 100 [tA]; LPrepare 100; LLock 100 0 true;
   LNew 200 [tB]; LPrepare 200] ++ finish 1 200 ++
  [LNew 300 [tC]; LPrepare 300] ++ finish 1 300 ++ finish 1 100.
Definition told (s : sys) (d : N) : list bool :=
  match sy_answers s !! d with Some a => a | None => [] end.
Definition double_spend_b (s : sys) : bool :=
  bool_decide (sy_answers s !! 100 = Some [true]) &&
  bool_decide (sy_answers s !! 200 = Some [false]) &&
  bool_decide (sy_answers s !! 300 = Some [true]) &&
  (times_spent (0, 255)%N 10%N (events_at s 0) =? 2)%nat &&
  (times_created (0, 255)%N 10%N (events_at s 0) =? 0)%nat.

(** A crash between the discard command and the discard calls. *)
Definition sys_leak : list label :=
  [LNew 100 [tA]; LPrepare 100; LLock 100 0 true; LDecide 100; LApply 100 0 true;
   LFinish 100; LCrash 100; LRecover 100] ++ finish 1 100.
Definition remembers (s : sys) (i : nat) (d : N) : bool :=
  match sy_nodes s !! i with
  | Some nd => bool_decide (d ∈ sh_applied (nd_shard nd))
  | None => false
  end.
Definition in_progress_b (s : sys) (d : N) : bool :=
  bool_decide (is_Some (rs_prepare (sy_rsm s) !! d)) ||
  bool_decide (is_Some (rs_commit (sy_rsm s) !! d)) ||
  bool_decide (d ∈ rs_discard (sy_rsm s)).
Lemma in_progress_spec s d : in_progress_b s d = true <-> in_progress s d.
Proof.
  unfold in_progress_b, in_progress.
  rewrite !orb_true_iff, !bool_decide_eq_true, <- !not_eq_None_Some. tauto.
Qed.
Lemma in_progress_not s d : in_progress_b s d = false <-> ~ in_progress s d.
Proof. rewrite <- in_progress_spec, not_true_iff_false. done. Qed.
