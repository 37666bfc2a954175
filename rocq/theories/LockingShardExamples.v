(** Concrete histories of a locking shard, and executable forms of the rules. *)
From Coq Require Import NArith List Bool Lia.
From stdpp Require Import base decidable list gmap.
From Verif Require Import Base CodecModel TxModel CacheModel
  LockingShardModel LockingShardSpec LockingShardProofs.
Import ListNotations.
Open Scope N_scope.

Fixpoint all_splits (P : list event -> event -> bool) (pre evs : list event) : bool :=
  match evs with
  | [] => true
  | e :: rest => P pre e && all_splits P (pre ++ [e]) rest
  end.
Lemma all_splits_sound P evs : forall pre e1 e e2,
  all_splits P pre evs = true -> evs = e1 ++ e :: e2 -> P (pre ++ e1) e = true.
Proof.
  induction evs as [|e' evs IH]; intros pre e1 e e2 H E; [destruct e1; discriminate|].
  cbn in H. apply andb_true_iff in H as [H1 H2]. destruct e1 as [|e1' e1]; cbn in E.
  - injection E as -> ->. now rewrite app_nil_r.
  - injection E as -> ->. replace (pre ++ e1' :: e1) with ((pre ++ [e1']) ++ e1)
      by now rewrite <- app_assoc.
    eapply IH; eauto.
Qed.

Definition completes_locked_b (evs : list event) : bool :=
  all_splits (fun pre e => match e with
    | Completed d i t => bool_decide ((d, i, t) ∈ holding pre)
    | _ => true end) [] evs.
Lemma completes_locked_check evs :
  completes_locked_b evs = true -> completes_locked evs.
Proof.
  intros H e1 d i t e2 E. pose proof (all_splits_sound _ _ _ _ _ _ H E) as P.
  cbn in P. apply bool_decide_eq_true, elem_of_list_In in P. exact P.
Qed.

Definition no_conflict_b (r : N * N) (evs : list event) : bool :=
  all_splits (fun pre e => match e with
    | Cancelled d i t =>
        bool_decide ((d, i, t) ∈ holding pre) ||
        forallb (fun x => implb (spends r t x)
          (forallb (fun k => negb (spends r (snd k) x)) (holding pre))) (ctx_inputs t)
    | _ => true end) [] evs.
Lemma no_conflict_check r evs :
  no_conflict_b r evs = true -> no_conflicting_cancel r evs.
Proof.
  intros H e1 d i t e2 d' i' t' x E Hn Hin Hs.
  pose proof (all_splits_sound _ _ _ _ _ _ H E) as P. cbn in P.
  apply orb_true_iff in P as [P|P].
  - apply bool_decide_eq_true, elem_of_list_In in P. tauto.
  - rewrite forallb_forall in P.
    assert (Hx : In x (ctx_inputs t)).
    { unfold spends in Hs. apply andb_true_iff in Hs as [_ Hs].
      apply bool_decide_eq_true, elem_of_list_In in Hs. exact Hs. }
    specialize (P x Hx). rewrite Hs in P. cbn in P. rewrite forallb_forall in P.
    specialize (P _ Hin). cbn in P. now apply negb_true_iff in P.
Qed.

Definition fresh_b (r : N * N) (preseed : gset N) (evs : list event) : bool :=
  all_splits (fun pre e => match e with
    | Completed d i t =>
        forallb (fun x => implb (creates r t x) (negb (unspent r preseed pre x)))
          (ctx_outputs t)
    | _ => true end) [] evs.
Lemma fresh_check r preseed evs :
  fresh_b r preseed evs = true -> fresh_outputs r preseed evs.
Proof.
  intros H e1 d i t e2 x E Hc.
  pose proof (all_splits_sound _ _ _ _ _ _ H E) as P. cbn in P.
  rewrite forallb_forall in P.
  assert (Hx : In x (ctx_outputs t)).
  { unfold creates in Hc. apply andb_true_iff in Hc as [_ Hc].
    apply bool_decide_eq_true, elem_of_list_In in Hc. exact Hc. }
  specialize (P x Hx). rewrite Hc in P. now apply negb_true_iff in P.
Qed.

Definition run_state (c : shard_cfg) (preseed : gset N) (cache : N) (rqs : list sreq)
  : option (shard * list sresp) :=
  match run_shard c (shard_new preseed cache) rqs with
  | Done x => Some x
  | _ => None
  end.
Lemma run_state_reaches c preseed cache rqs s rps :
  run_state c preseed cache rqs = Some (s, rps) -> reaches c preseed cache rqs s rps.
Proof.
  unfold run_state, reaches. destruct (run_shard _ _ _) as [[]| |]; congruence.
Qed.

Lemma run_check c preseed cache rqs (P : shard -> list sresp -> bool) :
  match run_state c preseed cache rqs with
  | Some (s, rps) => P s rps | None => false end = true ->
  exists s rps, reaches c preseed cache rqs s rps /\ P s rps = true.
Proof.
  destruct (run_state c preseed cache rqs) as [[s rps]|] eqn:E; [|discriminate].
  intros H. exists s, rps. split; [now apply run_state_reaches|done].
Qed.
#[global] Instance event_eq_dec : EqDecision event.
Proof. solve_decision. Defined.
#[global] Instance sresp_eq_dec : EqDecision sresp.
Proof. solve_decision. Defined.

(** A shard that owns every prefix and asks for no attestations. *)
Definition ex_cfg : shard_cfg :=
  shard_cfg_of (fun _ => 0) (fun _ => true) (fun _ _ _ => true) [] 0 (0, 255) true.
Definition ex_tx (id : N) (ins outs : list N) : compact_tx := CompactTx id ins outs [].
(** UHS ID 10 exists. Three transactions compete for it. *)
Definition ex_seed : gset N := {[10; 11]}.
Definition tA := ex_tx 1 [10] [21].
Definition tB := ex_tx 2 [10] [22].
Definition tC := ex_tx 3 [10] [23].

(** A locks 10; B is refused and cancelled, which releases A's lock; C locks 10;
    A and C are both completed. *)
Definition double_spend : list sreq :=
  [RLock 100 [tA]; RLock 200 [tB]; RApply 200 [false]; RDiscard 200;
   RLock 300 [tC]; RApply 100 [true]; RApply 300 [true]].

(** The same inside one distributed transaction: B also spends 99, which does not
    exist, so it is refused, and A that follows it is locked. *)
Definition tB2 := ex_tx 2 [10; 99] [22].
Definition double_spend_batch : list sreq :=
  [RLock 100 [tB2; tA]; RApply 100 [false; true]; RLock 300 [tC]; RApply 300 [true]].

(** A history that follows the rules: conflicts are cancelled after the holder is
    applied, created IDs are spent. *)
Definition tD := ex_tx 4 [21; 11] [24; 25].
Definition good_history : list sreq :=
  [RLock 100 [tA; tC]; RLock 100 [tA; tC]; RApply 100 [true; false];
   RApply 100 [true; false]; RDiscard 100; RLock 200 [tB]; RApply 200 [false];
   RLock 300 [tD]; RLock 400 [ex_tx 5 [11] [26]]; RApply 300 [true]; RApply 400 [false]; RDiscard 400; RDiscard 300].

(** Minting 10 again while it is locked. *)
Definition remint : list sreq :=
  [RLock 100 [tA]; RLock 200 [ex_tx 9 [] [10]]; RApply 200 [true]].

(** Executable forms of the statements refuted or illustrated in P_LockingShard.v. *)
Definition spent_twice (rqs : list sreq) (s : shard) (rps : list sresp) : bool :=
  completes_locked_b (history rqs rps) && fresh_b (0, 255) ex_seed (history rqs rps)
  && (times_created (0, 255)%N 10%N (history rqs rps) =? 0%nat)%nat
  && (times_spent (0, 255)%N 10%N (history rqs rps) =? 2%nat)%nat.
Definition rules_met (rqs : list sreq) (rps : list sresp) : bool :=
  completes_locked_b (history rqs rps) && no_conflict_b (0, 255) (history rqs rps)
  && fresh_b (0, 255) ex_seed (history rqs rps).
Definition good_events : list event :=
  [Locked 100 0 tA; Refused 100 1 tC; Completed 100 0 tA; Cancelled 100 1 tC;
   Refused 200 0 tB; Cancelled 200 0 tB; Locked 300 0 tD;
   Refused 400 0 (ex_tx 5 [11] [26]); Completed 300 0 tD;
   Cancelled 400 0 (ex_tx 5 [11] [26])].
Definition good_check (s : shard) (rps : list sresp) : bool :=
  rules_met good_history rps && bool_decide (history good_history rps = good_events)
  && (times_spent (0, 255)%N 10%N (history good_history rps) =? 1%nat)%nat
  && check_unspent s 24 && negb (check_unspent s 10).
Definition late_lock : list sreq := [RLock 100 [tA]; RApply 100 [false]; RDiscard 100].
Definition late_check (s : shard) (rps : list sresp) : bool :=
  bool_decide (rps = [ALock [true]; AApply; ADiscard]) &&
  bool_decide (10 ∈ sh_uhs s) && bool_decide (sh_locked s = ∅) &&
  match process_request ex_cfg s (RLock 100 [tA]) with
  | Done (s', rp) => bool_decide (rp = ALock [true]) && bool_decide (10 ∉ sh_uhs s')
                     && bool_decide (10 ∈ sh_locked s')
  | _ => false
  end.
