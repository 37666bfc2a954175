(** Proofs about an agent and its server, continued: every call keeps the agent alive and
    waiting for exactly what was asked for. *)
From stdpp Require Import base option list gmap fin_maps.
From Coq Require Import NArith Lia.
From Verif Require Import Base ParsecShardModel BrokerModel AgentModel AgentSpec AgentProofs AgentServer AgentLocks.
Open Scope N_scope.

Section Life.
Context (fn : bytes) (ilt : lock_type) (ro : bool).
Notation payload u := (if ro then ∅ else u : updates).

(** ** The record only grows *)

Definition grows (a b : agent) : Prop := exists l, a_tr b = l ++ a_tr a.

Lemma grows_refl a : grows a a.
Proof. by exists []. Qed.
Lemma grows_trans a b c : grows a b -> grows b c -> grows a c.
Proof. intros [l1 E1] [l2 E2]. exists (l2 ++ l1). by rewrite E2, E1, app_assoc. Qed.
Lemma grows_cons a b i : a_tr b = i :: a_tr a -> grows a b.
Proof. intros E. by exists [i]. Qed.
Lemma grows_same a b : a_tr b = a_tr a -> grows a b.
Proof. intros E. by exists []. Qed.

Lemma ask_grows a q : grows a (ask a q).1.
Proof.
  unfold ask. destruct (match a_ch a with [] => Later | c :: _ => c end); cbn; by eapply grows_cons.
Qed.
Lemma report_grows a : grows a (report a).
Proof.
  unfold report. destruct (a_res a) as [r|]; [|by eapply grows_cons].
  destruct (a_tk a); [by eapply grows_cons|]. by exists [Out (ODie NoTicket); Out (OReport r)].
Qed.
Lemma ask_then a a0 q (f : agent -> reply -> agent) :
  a_tr a0 = a_tr a -> (forall b c, grows b (f b c)) ->
  grows a (let '(b, c) := ask a0 q in f b c).
Proof.
  intros E Hf. pose proof (ask_grows a0 q) as H. destruct (ask a0 q) as [b c]. cbn in H.
  eapply grows_trans; [by apply (grows_same a a0)|]. eapply grows_trans; [exact H|apply Hf].
Qed.
Lemma rollback_grows a p : grows a (do_rollback a p).
Proof.
  unfold do_rollback.
  assert (H : forall t, grows a (let '(a1, c) := ask (with_perm (with_st a ARollbackSent) p) (QaRollback t) in
      match c with
      | Refuse => report (with_res (with_st a1 ARollbackFailed) (Some (Fail XUnreachable)))
      | _ => a1
      end)).
  { intros t. apply ask_then; [done|]. intros b []; [|apply grows_refl..].
    eapply grows_trans; [|apply report_grows]. by apply grows_same. }
  destruct (a_st a), (a_tk a); try apply H; by eapply grows_cons.
Qed.
Lemma result_grows a : grows a (do_result a).
Proof.
  unfold do_result. destruct (a_res a) as [r|]; [|by eapply grows_cons].
  destruct (a_st a); try (by eapply grows_cons); try apply report_grows; try apply rollback_grows.
  - destruct (a_tk a); [apply report_grows|by eapply grows_cons].
  - destruct r as [|[]]; try apply report_grows; by eapply grows_cons.
Qed.
Lemma fail_grows a s e : grows a (fail a s e).
Proof. unfold fail. eapply grows_trans; [|apply result_grows]. by apply grows_same. Qed.
Lemma finish_grows a : grows a (do_finish a).
Proof.
  unfold do_finish.
  assert (H : forall t, grows a (let '(a1, c) := ask (with_st a AFinishSent) (QaFinish t) in
      match c with Refuse => fail a1 AFinishFailed XUnreachable | _ => a1 end)).
  { intros t. apply ask_then; [done|]. intros b []; [apply fail_grows|apply grows_refl..]. }
  destruct (a_st a), (a_tk a); try apply H; by eapply grows_cons.
Qed.
Lemma commit_grows a : grows a (do_commit ro a).
Proof.
  unfold do_commit.
  assert (H : forall t u, grows a (let '(a1, c) := ask (with_st a ACommitSent) (QaCommit t (payload u)) in
      match c with Refuse => fail a1 ACommitFailed XUnreachable | _ => a1 end)).
  { intros t u. apply ask_then; [done|]. intros b []; [apply fail_grows|apply grows_refl..]. }
  destruct (a_st a), (a_res a) as [[]|], (a_tk a); try apply H; by eapply grows_cons.
Qed.
Lemma runner_grows a v : grows a (do_runner a v).
Proof.
  unfold do_runner. destruct (a_tk a); [|by eapply grows_cons].
  apply ask_then; [done|]. intros b []; [apply fail_grows|apply grows_refl..].
Qed.
Lemma lock_cb_grows a w r : grows a (lock_cb a w r).
Proof.
  unfold lock_cb. destruct w as [c|run]; [|by eapply grows_cons].
  destruct (a_cnt a !! c) as [[[n size] v]|]; [|apply grows_refl].
  destruct (n + 1 =? size); [|by apply grows_same].
  eapply grows_trans; [|apply runner_grows]. by apply grows_same.
Qed.
Lemma handle_lock_grows a w r : grows a (handle_lock a w r).
Proof.
  unfold handle_lock. destruct (a_st a); try apply grows_refl.
  eapply grows_trans; [|apply lock_cb_grows]. apply grows_same. by destruct (is_wounded r).
Qed.
Lemma take_lock_grows a w k m : grows a (take_lock ro a w k m).1.
Proof.
  unfold take_lock. destruct (a_tk a) as [t|]; [|by eapply grows_cons].
  destruct (a_st a); try apply grows_refl.
  destruct (ro && bool_decide (m = Write)); [apply grows_refl|].
  destruct (a_wound a); [apply handle_lock_grows|].
  set (a1 := match a_locks a !! k with Some Write => a | _ => with_locks a (<[k:=m]> (a_locks a)) end).
  assert (E : a_tr a1 = a_tr a) by (unfold a1; by destruct (a_locks a !! k) as [[]|]).
  pose proof (ask_grows a1 (QaLock w t k (if ro then Read else m))) as H.
  destruct (ask a1 _) as [a2 c]. cbn [fst] in H.
  assert (H' : grows a a2) by (eapply grows_trans; [by apply (grows_same a a1)|done]).
  destruct c; [done..|]. cbn [fst]. eapply grows_trans; [exact H'|].
  eapply grows_trans; [|apply handle_lock_grows]. by eapply grows_cons.
Qed.
Lemma reacquire_grows l : forall a c, grows a (reacquire ro a c l).
Proof.
  induction l as [|[k m] l IH]; intros a c; [apply grows_refl|]. cbn [reacquire].
  pose proof (take_lock_grows a (Reacq c) k m) as H.
  destruct (take_lock ro a (Reacq c) k m) as [a1 ok]. cbn [fst] in H.
  destruct (a_dead a1); [done|]. eapply grows_trans; [exact H|]. destruct ok; [apply IH|apply fail_grows].
Qed.
Lemma function_grows a r : grows a (handle_function ro a r).
Proof.
  unfold handle_function. destruct (a_st a); try apply grows_refl.
  destruct r as [|n|v|e|[e d]]; try apply grows_refl; try apply fail_grows.
  - destruct (map_to_list (a_locks a)).
    + eapply grows_trans; [|apply runner_grows]. by apply grows_same.
    + eapply grows_trans; [|apply reacquire_grows]. by apply grows_same.
  - destruct e; apply fail_grows.
Qed.
Lemma start_grows a : grows a (do_start fn ilt ro a).
Proof.
  unfold do_start.
  assert (H : forall t, grows a (
    if ro && (length fn =? 0)%nat then handle_function ro (with_st a AGetSent) (RValue [])
    else if (length fn =? 1)%nat then handle_function ro (with_st a AGetSent) (RValue fn)
    else
      let '(a2, c) := ask (with_st a AGetSent) (QaFunction t (if ro then Read else ilt)) in
      match c with Refuse => fail a2 AGetFailed XUnreachable | _ => a2 end)).
  { intros t. destruct (ro && (length fn =? 0)%nat).
    { eapply grows_trans; [|apply function_grows]. by apply grows_same. }
    destruct (length fn =? 1)%nat.
    { eapply grows_trans; [|apply function_grows]. by apply grows_same. }
    apply ask_then; [done|]. intros b []; [apply fail_grows|apply grows_refl..]. }
  destruct (a_st a), (a_tk a); try apply H; by eapply grows_cons.
Qed.
Lemma dispatch_grows a e : grows a (dispatch fn ilt ro a e).
Proof.
  destruct e as [|id r|id r|run k m]; cbn [dispatch].
  - unfold exec. destruct (a_st a); try apply grows_refl; try apply rollback_grows; try apply finish_grows;
      try apply commit_grows.
    1-3: apply ask_then; [done|]; intros b []; [apply fail_grows|apply grows_refl..].
    eapply grows_trans; [|apply start_grows]. by apply grows_same.
  - destruct (a_made a !! id) as [[]|]; try apply grows_refl.
    + unfold handle_begin. destruct (a_st a); try apply grows_refl.
      destruct r; try apply grows_refl; try apply fail_grows.
      eapply grows_trans; [|apply start_grows]. by apply grows_same.
    + apply function_grows.
    + apply handle_lock_grows.
    + unfold handle_commit. destruct (a_st a); try apply grows_refl.
      destruct r as [|n|v|e|[e d]]; try apply grows_refl; try apply finish_grows;
        destruct e; apply fail_grows.
    + unfold handle_rollback. destruct (a_st a); try apply grows_refl.
      destruct r; try apply grows_refl; try apply fail_grows.
      change (a_perm (with_st a ARollbackComplete)) with (a_perm a). destruct (a_perm a).
      * eapply grows_trans; [|apply finish_grows]. by apply grows_same.
      * eapply grows_trans; [|apply result_grows]. by apply grows_same.
    + unfold handle_finish. destruct (a_st a); try apply grows_refl.
      destruct r; try apply grows_refl; try apply fail_grows.
      eapply grows_trans; [|apply result_grows]. by apply grows_same.
  - unfold handle_run. destruct (a_st a); try apply grows_refl.
    destruct r; try apply fail_grows. eapply grows_trans; [|apply commit_grows]. by apply grows_same.
  - apply take_lock_grows.
Qed.

Lemma once_suffix l tr : once (l ++ tr) -> once tr.
Proof.
  unfold once, answers. rewrite omap_app. intros H. by apply NoDup_app in H as (_ & _ & H).
Qed.

(** ** Starting *)

Lemma function_lives k a t v : idle ro k a -> a_tk a = Some t -> a_st a = AGetSent ->
  ~ committed (a_tr a) -> alive ro k (handle_function ro a (RValue v)).
Proof.
  intros HI Ht Hs Hnc. unfold handle_function. rewrite Hs.
  set (a1 := with_locks (with_st a AStarted) ∅).
  assert (HC1 : core ro a1) by (apply (core_same _ a); try done; apply HI).
  assert (HI1 : idle ro k a1) by (by apply (idle_same ro k a)).
  destruct (map_to_list (a_locks a)) as [|x l] eqn:El; [by apply (runner_lives ro k a1 t)|].
  set (c := a_try a).
  set (a2 := with_cnt a1 (<[c:=(0, N.of_nat (length (x :: l)), v)]> (a_cnt a1)) (c + 1)).
  apply reacquire_lives.
  - destruct HI1 as [J1 J2 J3 J4 J5 J6 J7 J8].
    split; try done; [by apply (core_same _ a1)|by exists t].
  - destruct (i_set _ _ _ HI1) as [Hy Hset]. split_and!; try done.
    + apply HI.
    + split.
      * intros c' Hc'. cbn in Hc'. apply (Hy c'). change (a_try a1) with c. lia.
      * intros c' n size v' Hc Hne. cbn [a_cnt a2 with_cnt] in Hc. rewrite lookup_insert_ne in Hc by done.
        destruct (Hset c' n size v' Hc) as [H1 H2]. split; [|done].
        cbn [a_try a2 with_cnt]. change (a_try a1) with c in H1. lia.
    + exists 0, (N.of_nat (length (x :: l))), v. cbn [a_cnt a2 with_cnt]. rewrite lookup_insert.
      split; [done|]. assert (pend c (a_tr a2) = 0%nat) as ->.
      { apply (Hy c). change (a_try a1) with c. lia. }
      cbn [length]. lia.
Qed.

Lemma start_lives k a t : idle ro k a -> a_tk a = Some t ->
  (a_st a = ABeginSent \/ a_st a = ARollbackComplete) -> ~ committed (a_tr a) ->
  alive ro k (do_start fn ilt ro a).
Proof.
  intros HI Ht Hs Hnc. unfold do_start. rewrite Ht.
  set (a0 := with_st a AGetSent).
  assert (HI0 : idle ro k a0) by (apply (idle_same ro k a); try done; apply (core_same _ a); try done; apply HI).
  assert (Hmain : alive ro k (
    if ro && (length fn =? 0)%nat then handle_function ro a0 (RValue [])
    else if (length fn =? 1)%nat then handle_function ro a0 (RValue fn)
    else
      let '(a2, c) := ask a0 (QaFunction t (if ro then Read else ilt)) in
      match c with Refuse => fail a2 AGetFailed XUnreachable | _ => a2 end)).
  { destruct (ro && (length fn =? 0)%nat); [by apply (function_lives k a0 t)|].
    destruct (length fn =? 1)%nat; [by apply (function_lives k a0 t)|].
    destruct (ask a0 _) as [a1 c] eqn:E.
    eapply (idle_ask ro k a0) in E as (E1 & E2 & E3 & E4 & E5); try done.
    2:{ by intros t' [= <-]. }
    2:{ by intros ->. }
    assert (Hsent : core ro a1 /\ a_dead a1 = false /\ good2 ro (a_tr a1) /\
         base.NoDup (pending (a_tr a1)).*1 /\ drv (a_tr a1) = [(a_next a0, QaFunction t (if ro then Read else ilt))] /\
         settled a1 /\ told a1 = [] /\ retries a1 = k /\
         a_tr a1 = Out (OReq (Some (a_next a0)) (QaFunction t (if ro then Read else ilt))) :: a_tr a0 ->
       alive ro k a1).
    { intros (J1 & J2 & J3 & J4 & J5 & J6 & J7 & J8 & Et).
      split; try done.
      - unfold shape. rewrite E1. cbn [a_st a0 with_st]. split; [|done]. by eexists _, _, _.
      - rewrite Et. intros Hc. exfalso. revert Hc. apply (not_committed_ask ro k a0); try done. by intros ? [= <-].
      - unfold counts. rewrite E1, J7, J8. split; [exact (eq_sym (Nat.add_0_r k))|done].
      - unfold stuck_ok. rewrite E1. by intros [?|?]. }
    destruct c; [|by apply Hsent..].
    destruct E5 as [HI1 Et]. apply (fail_lives ro k _ _ _ t); try done.
    - rewrite E2. done.
    - rewrite Et. by apply (not_committed_ask ro k a0). }
  by destruct Hs as [-> | ->].
Qed.

(** The broker cannot be asked for a ticket number, or does not give one. *)
Lemma begin_over k a e : idle ro k a -> a_tk a = None -> upkeep_failed (a_tr a) -> ~ committed (a_tr a) ->
  (e = XUnreachable \/ e = XTicket) -> over ro (fail a ABeginFailed e).
Proof.
  intros HI Ht Hu Hnc He. unfold fail, do_result, report. cbn [a_res with_res a_st with_st a_tk]. rewrite Ht.
  destruct HI as [J1 J2 J3 J4 J5 J6 J7 J8].
  split; [done|]. split.
  - cbn. split; [by apply upkeep_cons|]. split; [|done]. split; [done|]. split; [done|].
    destruct He as [-> | ->]; intros [?|[?|?]]; discriminate.
  - change (length (filter (fun r : ares => is_retry r = false) (Fail e :: reports (a_tr a))) <= 1)%nat.
    rewrite filter_cons_True by (by destruct He as [-> | ->]).
    change (filter (fun r : ares => is_retry r = false) (reports (a_tr a))) with (told a). rewrite J7. cbn. lia.
Qed.

Lemma begin_lives k a : idle ro k a -> a_tk a = None -> a_st a = AInit -> ~ committed (a_tr a) ->
  lives ro k (exec fn ilt ro a).
Proof.
  intros HI Ht Hs Hnc. unfold exec. rewrite Hs.
  set (a0 := with_st (with_res a None) ABeginSent).
  assert (HI0 : idle ro k a0) by (apply (idle_same ro k a); try done; apply (core_same _ a); try done; apply HI).
  destruct (ask a0 QaBegin) as [a1 c] eqn:E.
  eapply (idle_ask ro k a0) in E as (E1 & E2 & E3 & E4 & E5); try done.
  assert (Hsent : core ro a1 /\ a_dead a1 = false /\ good2 ro (a_tr a1) /\
         base.NoDup (pending (a_tr a1)).*1 /\ drv (a_tr a1) = [(a_next a0, QaBegin)] /\
         settled a1 /\ told a1 = [] /\ retries a1 = k /\
         a_tr a1 = Out (OReq (Some (a_next a0)) QaBegin) :: a_tr a0 ->
       alive ro k a1).
  { intros (J1 & J2 & J3 & J4 & J5 & J6 & J7 & J8 & Et).
    split; try done.
    - unfold shape. rewrite E1. cbn [a_st a0 with_st]. split; [|done]. by eexists _.
    - rewrite Et. intros Hc. exfalso. revert Hc. apply (not_committed_ask ro k a0); try done. by intros ? [= <-].
    - unfold counts. rewrite E1, J7, J8. split; [exact (eq_sym (Nat.add_0_r k))|done].
    - unfold stuck_ok. rewrite E1. by intros [?|?]. }
  destruct c; [|left; by apply Hsent..].
  destruct E5 as [HI1 Et]. right. apply (begin_over k); try done.
  - rewrite E2. done.
  - exists QaBegin. split; [done|]. left. rewrite Et. apply elem_of_list_here.
  - rewrite Et. by apply (not_committed_ask ro k a0).
  - by left.
Qed.

(** ** Answers *)

Definition closes (e : aevent) (id : N) : Prop :=
  (exists r, e = EvAnswer id r) \/ (exists r, e = EvRan id r).

Lemma closes_pending e id tr : closes e id ->
  pending (In e :: tr) = filter (fun p : N * areq => p.1 <> id) (pending tr).
Proof. by intros [[r ->]|[r ->]]. Qed.

(** The answer to a request that is not for a lock: it is the one the agent waits for. *)
Lemma answer_idle k a b e id q : alive ro k a -> core ro b -> a_tr b = In e :: a_tr a -> closes e id ->
  (id, q) ∈ pending (a_tr a) -> driving q = true ->
  a_st b = a_st a -> a_dead b = a_dead a -> a_cnt b = a_cnt a -> a_try b = a_try a ->
  idle ro k b /\ drv (a_tr a) = [(id, q)].
Proof.
  intros [L1 L2 L3 L4 L5 L6 L7] HC Et Hcl Hin Hdr Es Ed Ec Ey.
  assert (Hind : (id, q) ∈ drv (a_tr a)).
  { apply elem_of_list_filter. done. }
  assert (Hone : drv (a_tr a) = [(id, q)] /\ settled a /\ a_st a <> ARollbackComplete /\ final (a_st a) = false).
  { unfold shape in L4.
    destruct (a_st a); try done;
      try (destruct L4 as [L4 _]; rewrite L4 in Hind; by apply elem_of_nil in Hind).
    - destruct L4 as [(id' & E) Hset]. rewrite E in Hind |- *. apply elem_of_list_singleton in Hind. by rewrite Hind.
    - destruct L4 as [(id' & t & m & E) Hset]. rewrite E in Hind |- *. apply elem_of_list_singleton in Hind. by rewrite Hind.
    - destruct L4 as [(id' & v & E & _ & Hset)|[E _]].
      + rewrite E in Hind |- *. apply elem_of_list_singleton in Hind. by rewrite Hind.
      + rewrite E in Hind. by apply elem_of_nil in Hind.
    - destruct L4 as [(id' & t & u & E & _) Hset]. rewrite E in Hind |- *. apply elem_of_list_singleton in Hind. by rewrite Hind.
    - destruct L4 as ((id' & t & E) & Hset & _). rewrite E in Hind |- *. apply elem_of_list_singleton in Hind. by rewrite Hind.
    - destruct L4 as ((id' & t & E & _) & Hset & _). rewrite E in Hind |- *. apply elem_of_list_singleton in Hind. by rewrite Hind. }
  destruct Hone as (Hone & Hset & Hns & Hnf). split; [|done].
  assert (Hp : pending (a_tr b) = filter (fun p : N * areq => p.1 <> id) (pending (a_tr a))).
  { rewrite Et. by apply closes_pending. }
  assert (Hpend : forall c, pend c (a_tr b) = pend c (a_tr a)).
  { intros c. unfold pend. rewrite Hp, remove_drv. f_equal. apply remove_absent.
    intros q' Hq. apply elem_of_list_filter in Hq as [Hq1 Hq2].
    rewrite (NoDup_fst_unique _ _ _ _ L3 Hq2 Hin) in Hq1. cbn in Hq1. rewrite driving_count in Hq1; done. }
  split; try done.
  - congruence.
  - rewrite Et. split; [|done]. by destruct Hcl as [[r ->]|[r ->]].
  - rewrite Hp. by apply NoDup_fst_filter.
  - unfold drv. rewrite Hp, remove_drv. fold (drv (a_tr a)). rewrite Hone.
    rewrite filter_cons_False; [done|]. cbn. intros Hq. by apply Hq.
  - destruct Hset as [Hy Hset]. split.
    + intros c Hc. rewrite Hpend. apply Hy. congruence.
    + intros c n size v Hc. rewrite Hpend, Ey. rewrite Ec in Hc. by eapply Hset.
  - unfold told. rewrite Et. destruct L6 as [_ L6]. rewrite Hnf in L6.
    destruct Hcl as [[r ->]|[r ->]]; change (told a = []); by destruct (told a).
  - unfold retries. rewrite Et. destruct L6 as [L6 _]. rewrite bool_decide_eq_false_2 in L6 by done.
    rewrite Nat.add_0_r in L6. by destruct Hcl as [[r ->]|[r ->]].
Qed.

Lemma settled_le a b : a_cnt b = a_cnt a -> a_try b = a_try a ->
  (forall c, (pend c (a_tr b) <= pend c (a_tr a))%nat) -> settled a -> settled b.
Proof.
  intros Ec Ey Hle [Hy Hs]. split.
  - intros c Hc. rewrite Ey in Hc. specialize (Hle c). rewrite (Hy c Hc) in Hle. lia.
  - intros c n size v Hc. rewrite Ec in Hc. rewrite Ey. destruct (Hs c n size v Hc) as [H1 H2].
    split; [done|]. specialize (Hle c). destruct H2 as [H2|[H2 H3]]; [left|right; split]; lia.
Qed.
Lemma settled_but_le a b c0 : a_cnt b = a_cnt a -> a_try b = a_try a ->
  (forall c, (pend c (a_tr b) <= pend c (a_tr a))%nat) -> settled_but a c0 -> settled_but b c0.
Proof.
  intros Ec Ey Hle [Hy Hs]. split.
  - intros c Hc. rewrite Ey in Hc. specialize (Hle c). rewrite (Hy c Hc) in Hle. lia.
  - intros c n size v Hc Hne. rewrite Ec in Hc. rewrite Ey. destruct (Hs c n size v Hc Hne) as [H1 H2].
    split; [done|]. specialize (Hle c). destruct H2 as [H2|[H2 H3]]; [left|right; split]; lia.
Qed.

(** The answer to a request for a lock. *)
Lemma lock_answer_lives k a b id w t key m r : alive ro k a -> inv ro a -> core ro b ->
  b = emit (with_ch a (a_ch b)) (In (EvAnswer id r)) ->
  (id, QaLock w t key m) ∈ pending (a_tr a) -> alive ro k (handle_lock b w r).
Proof.
  intros HL Hi HCb Eb Hin. pose proof HL as [L1 L2 L3 L4 L5 L6 L7].
  assert (Et : a_tr b = In (EvAnswer id r) :: a_tr a) by (by rewrite Eb).
  assert (Es : a_st b = a_st a) by (by rewrite Eb).
  assert (Hp : pending (a_tr b) = filter (fun p : N * areq => p.1 <> id) (pending (a_tr a))) by (by rewrite Et).
  assert (Hdrv : drv (a_tr b) = drv (a_tr a)).
  { unfold drv. rewrite Hp, remove_drv. apply remove_absent.
    intros q' Hq. apply elem_of_list_filter in Hq as [Hq1 Hq2].
    by rewrite (NoDup_fst_unique _ _ _ _ L3 Hq2 Hin) in Hq1. }
  assert (Hpo : forall c, of_count c (QaLock w t key m) = false -> pend c (a_tr b) = pend c (a_tr a)).
  { intros c Hc. unfold pend. rewrite Hp, remove_drv. f_equal. apply remove_absent.
    intros q' Hq. apply elem_of_list_filter in Hq as [Hq1 Hq2].
    rewrite (NoDup_fst_unique _ _ _ _ L3 Hq2 Hin) in Hq1. unfold snd in Hq1. congruence. }
  assert (Hpc : forall c, of_count c (QaLock w t key m) = true -> pend c (a_tr a) = S (pend c (a_tr b))).
  { intros c Hc. unfold pend. rewrite Hp, remove_drv. apply (remove_one _ id (QaLock w t key m)).
    - by apply NoDup_fst_filter.
    - by apply elem_of_list_filter. }
  assert (Hple : forall c, (pend c (a_tr b) <= pend c (a_tr a))%nat).
  { intros c. destruct (of_count c (QaLock w t key m)) eqn:E; [rewrite (Hpc c E); lia|by rewrite (Hpo c E)]. }
  assert (Hnc : committed (a_tr b) -> committed (a_tr a)).
  { rewrite Et. intros Hc. apply (committed_cons_inv ro) in Hc; [|apply Hi].
    destruct Hc as [?|[(id' & t' & u & Ei & Ha)|(id' & t' & u & Ei & _)]]; [done| |discriminate Ei].
    injection Ei as <- ->. apply (c_made _ _ (proj1 Hi)) in Ha.
    apply pending_asked in Hin. apply (c_made _ _ (proj1 Hi)) in Hin. congruence. }
  assert (Hset : settled a -> settled b).
  { apply settled_le; [by rewrite Eb|by rewrite Eb|done]. }
  assert (Hu : base.NoDup (pending (a_tr b)).*1) by (rewrite Hp; by apply NoDup_fst_filter).
  destruct (decide (a_st a = AStarted)) as [Hst|Hst].
  - (* the function is running *)
    pose proof (alive_busy ro k a Hi HL Hst) as HBa.
    assert (HB : busy ro k b).
    { destruct HBa as [G1 G2 G3 G4 G5 G6 G7 G8 G9]. split; try done.
      - by rewrite Eb.
      - by rewrite Et.
      - congruence.
      - by rewrite Eb.
      - auto.
      - by rewrite Eb.
      - by rewrite Eb. }
    destruct (handle_lock_busy ro k b w r HB) as (b' & HB' & -> & E1 & E2 & E3).
    assert (Ec : a_cnt b' = a_cnt a) by (rewrite E2, Eb; done).
    assert (Ey : a_try b' = a_try a) by (rewrite E3, Eb; done).
    destruct w as [c|run].
    + (* a lock taken back *)
      destruct (a_cnt a !! c) as [[[n size] v]|] eqn:Hcnt.
      2:{ (* no counter: it cannot be *)
          unfold lock_cb. rewrite Ec, Hcnt. apply busy_alive; [done|].
          unfold shape in *. rewrite (y_st _ _ _ HB'). rewrite Hst in L4.
          destruct L4 as [(id' & v & H1 & H2 & H3)|(H1 & c' & n & size & v & H2 & H3 & H4 & H5 & H6)].
          - left. exists id', v. rewrite E1, Hdrv. split; [done|]. split; [rewrite Et; by apply running_cons|].
            apply (settled_le a); try done. intros c0. by rewrite E1.
          - right. split; [congruence|]. assert (Hne : c' <> c) by congruence.
            exists c', n, size, v. rewrite Ey, Ec, E1, Hpo by (cbn; by apply N.eqb_neq, not_eq_sym).
            split_and!; try done. apply (settled_but_le a); try done. intros c0. by rewrite E1. }
      assert (Hcc : of_count c (QaLock (Reacq c) t key m) = true) by (cbn; apply N.eqb_refl).
      specialize (Hpc c Hcc).
      (* a counter of an earlier attempt goes up, short of its end *)
      assert (Hold : n + N.of_nat (pend c (a_tr a)) < size ->
        lock_cb b' (Reacq c) r = with_cnt b' (<[c := (n + 1, size, v)]> (a_cnt b')) (a_try b')).
      { intros Hlt. unfold lock_cb. rewrite Ec, Hcnt.
        destruct (N.eqb_spec (n + 1) size) as [Heq|Hneq]; [lia|]. done. }
      set (b2 := with_cnt b' (<[c := (n + 1, size, v)]> (a_cnt b')) (a_try b')) in *.
      assert (HB2 : busy ro k b2) by (by apply (busy_same ro k b')).
      unfold shape in L4. rewrite Hst in L4.
      destruct L4 as [(id' & v' & H1 & H2 & [Hy H3])|(H1 & c' & n' & size' & v' & H2 & H3 & H4 & H5 & [Hy H6])].
      * destruct (H3 c n size v Hcnt) as [F1 F2].
        assert (Hlt : n + N.of_nat (pend c (a_tr a)) < size) by (destruct F2 as [?|[? ?]]; lia).
        rewrite (Hold Hlt). apply busy_alive; [done|].
        unfold shape. rewrite (y_st _ _ _ HB2). left. exists id', v'.
        cbn [a_tr b2 with_cnt]. rewrite E1, Hdrv. split; [done|]. split; [rewrite Et; by apply running_cons|].
        split.
        -- intros c0 Hc0. cbn [a_tr b2 with_cnt]. rewrite E1. specialize (Hple c0).
           cbn [a_try b2 with_cnt] in Hc0. rewrite Ey in Hc0. rewrite (Hy c0) in Hple; lia.
        -- intros c0 n0 s0 v0. cbn [a_cnt b2 with_cnt a_tr a_try]. rewrite E1, Ey, Ec.
           rewrite lookup_insert_Some. intros [[<- [= <- <- <-]]|[Hne Hc0]]; [split; [done|lia]|].
           destruct (H3 c0 n0 s0 v0 Hc0) as [G1 G2]. split; [done|].
           specialize (Hple c0). destruct G2 as [G2|[G2 G3]]; [left|right; split]; lia.
      * destruct (decide (c = c')) as [<-|Hne].
        -- rewrite Hcnt in H3. injection H3 as <- <- <-.
           assert (HLk : locking b' c 0 1).
           { split_and!; try congruence.
             - split.
               + intros c0 Hc0. rewrite E1. rewrite Ey in Hc0. specialize (Hple c0). rewrite (Hy c0) in Hple; lia.
               + intros c0 n0 s0 v0 Hc0 Hn0. rewrite Ec in Hc0. rewrite Ey, E1.
                 destruct (H6 c0 n0 s0 v0 Hc0 Hn0) as [G1 G2]. split; [done|].
                 specialize (Hple c0). destruct G2 as [G2|[G2 G3]]; [left|right; split]; lia.
             - exists n, size, v. rewrite Ec, E1. split; [done|]. lia. }
           destruct (counted ro k b' c r 0 HB' HLk) as [[_ Ha]|[Ha Hb]]; [done|].
           by apply (locking_alive ro k _ c).
        -- destruct (H6 c n size v Hcnt Hne) as [F1 F2].
           assert (Hlt : n + N.of_nat (pend c (a_tr a)) < size) by (destruct F2 as [?|[? ?]]; lia).
           rewrite (Hold Hlt). apply (locking_alive ro k b2 c'); [done|].
           split_and!.
           ++ cbn [a_tr b2 with_cnt]. congruence.
           ++ cbn [a_try b2 with_cnt]. congruence.
           ++ split.
              ** intros c0 Hc0. cbn [a_tr b2 with_cnt]. rewrite E1. specialize (Hple c0).
                 cbn [a_try b2 with_cnt] in Hc0. rewrite Ey in Hc0. rewrite (Hy c0) in Hple; lia.
              ** intros c0 n0 s0 v0. cbn [a_cnt b2 with_cnt a_tr a_try]. rewrite E1, Ey, Ec.
                 rewrite lookup_insert_Some. intros [[<- [= <- <- <-]]|[Hn0 Hc0]] Hn1; [split; [done|lia]|].
                 destruct (H6 c0 n0 s0 v0 Hc0 Hn1) as [G1 G2]. split; [done|].
                 specialize (Hple c0). destruct G2 as [G2|[G2 G3]]; [left|right; split]; lia.
           ++ exists n', size', v'. cbn [a_cnt b2 with_cnt a_tr]. rewrite E1, Ec.
              rewrite lookup_insert_ne by done. split; [done|].
              rewrite (Hpo c') by (cbn; by apply N.eqb_neq). lia.
    + (* a lock of the runner *)
      cbn. pose proof HB' as [G1 G2 G3 G4 G5 G6 G7 G8 G9].
      apply busy_alive.
      * split; try done; [by apply core_emit|]. by apply not_committed_out.
      * apply (only_shape_locks ro a); try done; cbn; rewrite ?E1; try done.
        -- intros c. by apply Hpo.
        -- intros id0 Hr. rewrite Et. by do 2 (apply running_cons; [done|]).
  - (* the answer is ignored *)
    assert (handle_lock b w r = b) as ->.
    { unfold handle_lock. rewrite Es. by destruct (a_st a). }
    split; try done.
    + by rewrite Eb.
    + by rewrite Et.
    + unfold shape in *. rewrite Es, Hdrv.
      destruct (a_st a); try done;
        try (destruct L4 as [L4 Hse]; split; [done|by apply Hset]).
      * destruct L4 as [(id' & t' & u & F1 & F2) Hse]. split; [|by apply Hset].
        exists id', t', u. split; [done|]. by rewrite Eb.
      * destruct L4 as (F1 & Hse & r0 & F2 & F3 & F4). split; [done|]. split; [by apply Hset|].
        exists r0. split; [by rewrite Eb|]. split.
        -- intros u Hr0. destruct (F3 u Hr0) as [t' Ht']. exists t'. rewrite Et. by apply commit_ok_cons.
        -- intros e Hr0. destruct (F4 e Hr0) as (G1 & G2 & G3). split_and!; [auto| |done].
           rewrite Et. by apply undone_cons.
      * destruct L4 as [(id' & t' & F1 & F2) [Hse Hre]]. split; [|split; [by apply Hset|by rewrite Eb]].
        exists id', t'. split; [done|]. destruct F2 as (l & t0 & e0 & F2 & F3). rewrite Et, F2.
        exists (In (EvAnswer id r) :: l), t0, e0. split; [done|]. by apply only_cons.
    + rewrite Es. auto.
    + unfold counts, told, retries in *. by rewrite Es, Et.
    + unfold stuck_ok in *. rewrite Es, Et. intros Hq. apply upkeep_cons. auto.
Qed.

End Life.
