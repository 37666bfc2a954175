(** The statements of P_TwoPhase.v about reachable states. *)
From Coq Require Import NArith List Bool Lia Arith.
From stdpp Require Import base decidable list gmap.
From Verif Require Import Base CodecModel TxModel CacheModel LockingShardModel
  LockingShardSpec LockingShardProofs LockingShardCorollaries LockingShardExamples
  TwoPhaseModel TwoPhaseSpec
  TwoPhaseNode TwoPhaseProofs TwoPhaseCorollaries TwoPhaseRecovery TwoPhaseExamples.
Import ListNotations.
Open Scope N_scope.

Section Final.
Context (cfgs : list shard_cfg) (preseeds : list (gset N)) (cache : N).
Local Notation reach := (reachable cfgs preseeds cache).
Local Notation reachp := (reachable_proper cfgs preseeds cache).

Lemma reachp_good s : reachp s -> good cfgs preseeds cache s /\ proper_sys cfgs s.
Proof.
  intros (Hl & ls & HF & H).
  destruct (run_total cfgs preseeds cache ls (sys_new preseeds cache)) as (s' & H' & HG & Hp).
  - now apply good_new.
  - intros d B c Hb. cbn in Hb. now rewrite lookup_empty in Hb.
  - done.
  - rewrite H in H'. injection H' as <-. done.
Qed.

Lemma final_atomic s d B i j i' j' k t t' :
  reach s -> sy_batches s !! d = Some B ->
  sent cfgs B i j k t -> sent cfgs B i' j' k t' ->
  In (Completed d j t) (events_at s i) -> ~ In (Cancelled d j' t') (events_at s i').
Proof.
  intros H Hb S1 S2 E1 E2. apply reachable_good in H.
  exact (atomic cfgs preseeds cache s d B i j i' j' k t t' H Hb S1 S2 E1 E2).
Qed.

Lemma final_completed_all_locked s d B i j k t :
  reach s -> sy_batches s !! d = Some B -> sent cfgs B i j k t ->
  In (Completed d j t) (events_at s i) ->
  forall i' j' t', sent cfgs B i' j' k t' -> In (Locked d j' t') (events_at s i').
Proof. intros H. apply reachable_good in H. now apply (completed_all_locked cfgs preseeds cache). Qed.

Lemma final_cancelled_some_refused s d B i j k t :
  reach s -> sy_batches s !! d = Some B -> sent cfgs B i j k t ->
  In (Cancelled d j t) (events_at s i) ->
  exists i' j' t', sent cfgs B i' j' k t' /\ In (Refused d j' t') (events_at s i').
Proof. intros H. apply reachable_good in H. now apply (cancelled_some_refused cfgs preseeds cache). Qed.

Lemma final_answer s d A :
  reach s -> sy_answers s !! d = Some A ->
  exists B, sy_batches s !! d = Some B /\ length A = length B /\
    forall i j k t, sent cfgs B i j k t ->
      exists b : bool, A !! k = Some b /\
        In (if b then Completed d j t else Cancelled d j t) (events_at s i).
Proof. intros H. apply reachable_good in H. now apply (answer_exact cfgs preseeds cache). Qed.

Lemma final_only_sent s i d j t :
  reach s ->
  In (Locked d j t) (events_at s i) \/ In (Refused d j t) (events_at s i) \/
  In (Completed d j t) (events_at s i) \/ In (Cancelled d j t) (events_at s i) ->
  exists B k, sy_batches s !! d = Some B /\ sent cfgs B i j k t.
Proof.
  intros H Hin. apply reachable_good in H.
  destruct Hin as [Hin|[Hin|[Hin|Hin]]];
    destruct (only_sent cfgs preseeds cache s i _ H Hin) as (B & j' & k & t' & Hb & Hs & E);
    cbn in Hb, E; exists B, k; (split; [done|]);
    destruct E as [E|[E|[E|E]]]; inv E; done.
Qed.

Lemma final_once s i : reach s -> List.NoDup (events_at s i).
Proof. intros H. apply reachable_good in H. now apply (events_once cfgs preseeds cache). Qed.

Lemma final_completes_locked s i : reach s -> completes_locked (events_at s i).
Proof. intros H. apply reachable_good in H. now apply (system_completes_locked cfgs preseeds cache). Qed.

Lemma final_no_double_spend s i c p x :
  reach s -> cfgs !! i = Some c -> preseeds !! i = Some p ->
  in_range (sc_range c) x = true ->
  no_conflicting_cancel (sc_range c) (events_at s i) ->
  (times_spent (sc_range c) x (events_at s i)
   <= (if bool_decide (x ∈ p) then 1 else 0)
      + times_created (sc_range c) x (events_at s i))%nat.
Proof.
  intros H Hc Hp Hx Hn. pose proof (final_completes_locked s i H) as Hcl.
  apply reachable_good in H.
  destruct (node_get cfgs preseeds cache s i H) as (nd & c' & p' & En & Ec & Hok & Ep).
  { eapply lookup_lt_Some; eauto. }
  assert (c' = c) as -> by congruence. assert (p' = p) as -> by congruence.
  unfold events_at in *. rewrite En in *.
  exact (no_double_spend c p cache _ _ _ x Hok Hx Hcl Hn).
Qed.

Lemma final_decision_stable s ls s' d C idxs B i j k t :
  reach s ->
  rs_commit (sy_rsm s) !! d = Some (C, idxs) -> sy_batches s !! d = Some B ->
  run cfgs s ls = SOk s' -> sent cfgs B i j k t ->
  (In (Completed d j t) (events_at s' i) -> C !! k = Some true) /\
  (In (Cancelled d j t) (events_at s' i) -> C !! k = Some false).
Proof. intros H. apply reachable_good in H. now apply (decision_stable cfgs preseeds cache). Qed.

Lemma final_recovers s d :
  reachp s -> in_progress s d ->
  exists B s' C, sy_batches s !! d = Some B /\
    run cfgs s (takeover (length cfgs) d) = SOk s' /\ ~ in_progress s' d /\
    (forall C0 ks, rs_commit (sy_rsm s) !! d = Some (C0, ks) -> C = C0) /\
    length C = length B /\
    forall i j k t, sent cfgs B i j k t -> exists b : bool, C !! k = Some b /\
       In (if b then Completed d j t else Cancelled d j t) (events_at s' i).
Proof. intros H. apply reachp_good in H as [HG Hp]. now apply (takeover_done cfgs preseeds cache). Qed.

Lemma final_any_crashes s d x s1 ls s2 :
  reachp s -> in_progress s d ->
  sy_dtx s !! d = Some x ->
  run cfgs s (finish (length cfgs) d) = SOk s1 ->
  Forall (fun l => label_dtx l = d) ls -> run cfgs s ls = SOk s2 -> ~ in_progress s2 d ->
  forall i, ledger s2 i = ledger s1 i.
Proof. intros H. apply reachp_good in H as [HG Hp]. now apply (any_crashes cfgs preseeds cache). Qed.

Lemma coordinator_never_fatal ls :
  length preseeds = length cfgs ->
  run cfgs (sys_new preseeds cache) ls <> SCoordDown /\
  run cfgs (sys_new preseeds cache) ls <> SUndefined.
Proof.
  intros Hl. pose proof (good_new cfgs preseeds cache Hl) as HG.
  revert HG. generalize (sys_new preseeds cache). induction ls as [|l ls IH]; intros s HG.
  - cbn. split; discriminate.
  - cbn. pose proof (step_good cfgs preseeds cache s l HG) as G.
    destruct (step cfgs s l) as [s'| | |]; cbn in G; try contradiction; [auto|split; discriminate].
Qed.

End Final.

Lemma sok_check (r : sres) (P : sys -> bool) :
  match r with SOk s => P s | _ => false end = true -> exists s, r = SOk s /\ P s = true.
Proof. destruct r; try discriminate. eauto. Qed.

Lemma leak :
  exists cfgs preseeds cache s d x s1 ls s2,
    reachable_proper cfgs preseeds cache s /\ in_progress s d /\
    sy_dtx s !! d = Some x /\
    run cfgs s (finish (length cfgs) d) = SOk s1 /\
    Forall (fun l => label_dtx l = d) ls /\ run cfgs s ls = SOk s2 /\ ~ in_progress s2 d /\
    remembers s1 0 d = false /\ remembers s2 0 d = true.
Proof.
  set (pre := [LNew 100 [tA]; LPrepare 100; LLock 100 0 true; LDecide 100; LApply 100 0 true;
               LFinish 100]).
  destruct (sys_check [ex_cfg] [ex_seed] 100 pre (fun s =>
    in_progress_b s 100 && bool_decide (is_Some (sy_dtx s !! 100)) &&
    match run [ex_cfg] s (finish 1 100) with SOk s1 => negb (remembers s1 0 100) | _ => false end &&
    match run [ex_cfg] s (takeover 1 100) with
    | SOk s2 => negb (in_progress_b s2 100) && remembers s2 0 100 | _ => false end))
    as (s & H & P); [vm_compute; reflexivity|].
  rewrite !andb_true_iff, bool_decide_eq_true in P. destruct P as [[[P1 [x P2]] P3] P4].
  apply (sok_check _ (fun s1 => negb (remembers s1 0 100))) in P3 as (s1 & E1 & P3).
  apply (sok_check _ (fun s2 => negb (in_progress_b s2 100) && remembers s2 0 100)) in P4
    as (s2 & E2 & P4).
  apply negb_true_iff in P3. apply andb_true_iff in P4 as [P4 P5]. apply negb_true_iff in P4.
  exists [ex_cfg], [ex_seed], 100, s, 100, x, s1, (takeover 1 100), s2.
  split.
  { split; [reflexivity|]. exists pre. split; [apply proper_check; vm_compute; reflexivity|exact H]. }
  split; [exact (proj1 (in_progress_spec s 100) P1)|]. split; [exact P2|]. split; [exact E1|].
  split; [repeat constructor|]. split; [exact E2|].
  split; [exact (proj1 (in_progress_not s2 100) P4)|]. split; [exact P3|exact P5].
Qed.

Lemma recovery_case :
  exists s x s1 s2, reachable_proper ex2 ex2_seeds 100 s /\ in_progress s 1 /\
    sy_dtx s !! 1 = Some x /\
    rs_commit (sy_rsm s) !! 1 = Some ([true; true], [[0; 1]; [0; 1]]%nat) /\
    run ex2 s (finish 2 1) = SOk s1 /\ run ex2 s (takeover 2 1) = SOk s2 /\
    ~ In (Completed 1 0 tX) (events_at s 1) /\ In (Completed 1 0 tX) (events_at s2 1).
Proof.
  destruct (sys_check ex2 ex2_seeds 100 ex2_before (fun s =>
    in_progress_b s 1 && bool_decide (is_Some (sy_dtx s !! 1)) &&
    bool_decide (rs_commit (sy_rsm s) !! 1 = Some ([true; true], [[0; 1]; [0; 1]]%nat)) &&
    bool_decide (Completed 1 0 tX ∉ events_at s 1) &&
    match run ex2 s (finish 2 1) with SOk s1 => true | _ => false end &&
    match run ex2 s (takeover 2 1) with
    | SOk s2 => bool_decide (Completed 1 0 tX ∈ events_at s2 1) | _ => false end))
    as (s & H & P); [vm_compute; reflexivity|].
  rewrite !andb_true_iff, !bool_decide_eq_true in P.
  destruct P as [[[[[P1 [x P2]] P3] P4] P5] P6].
  apply (sok_check _ (fun _ => true)) in P5 as (s1 & E1 & _).
  apply (sok_check _ (fun s2 => bool_decide (Completed 1 0 tX ∈ events_at s2 1))) in P6
    as (s2 & E2 & P6).
  rewrite bool_decide_eq_true, elem_of_list_In in P6.
  exists s, x, s1, s2.
  split.
  { split; [reflexivity|]. exists ex2_before.
    split; [apply proper_check; vm_compute; reflexivity|exact H]. }
  split; [exact (proj1 (in_progress_spec s 1) P1)|]. split; [exact P2|]. split; [exact P3|].
  split; [exact E1|]. split; [exact E2|]. split; [rewrite <- elem_of_list_In; exact P4|exact P6].
Qed.
