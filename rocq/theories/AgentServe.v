(** Proofs about an agent and its server, continued: every call into the agent, and every
    step of the server. *)
From stdpp Require Import base option list gmap fin_maps.
From Coq Require Import NArith Lia.
From Verif Require Import Base ParsecShardModel BrokerModel AgentModel AgentSpec AgentProofs AgentServer AgentLocks AgentLife.
Open Scope N_scope.

Section Serve.
Context (fn : bytes) (ilt : lock_type) (ro : bool).
Notation payload u := (if ro then ∅ else u : updates).

(** ** A call that changes nothing *)

Lemma event_inv a e ch : inv ro a -> a_dead a = false -> fits a e = true ->
  inv ro (emit (with_ch a ch) (In e)).
Proof.
  intros [HC [?|HR]] Hd Hf; [congruence|]. split.
  - apply core_emit; [by apply (core_same _ a)|done|done|].
    intros id r He. injection He as ->. cbn in Hf |- *. by destruct (a_made a !! id).
  - right. unfold rest in *. cbn. destruct (a_st a); try done.
    + destruct HR as (t & u & c & H1 & H2 & H3). exists t, u, c. split_and!; try done. by apply asked_cons.
    + destruct HR as (H0 & r & Hr & Hu). split; [done|]. exists r. split; [done|].
      intros u E. destruct (Hu u E) as (t & c & t' & u' & F1 & F2 & F3).
      exists t, c, t', u'. split; [done|]. split; [by apply asked_cons|by apply commit_ok_cons].
Qed.

Lemma quiet_alive k a ch run key m : alive ro k a -> inv ro a ->
  alive ro k (emit (with_ch a ch) (In (EvLock run key m))).
Proof.
  intros [L1 L2 L3 L4 L5 L6 L7] Hi. set (b := emit _ _).
  assert (Et : a_tr b = In (EvLock run key m) :: a_tr a) by done.
  assert (Hnc : committed (a_tr b) -> committed (a_tr a)).
  { rewrite Et. intros Hc. apply (committed_cons_inv ro) in Hc; [|apply Hi].
    destruct Hc as [?|[(id' & t' & u & Ei & Ha)|(id' & t' & u & Ei & _)]]; [done|discriminate Ei..]. }
  split; try done.
  - unfold shape in *. cbn [a_st b emit with_ch]. change (drv (a_tr b)) with (drv (a_tr a)).
    change (settled b) with (settled a).
    destruct (a_st a); try done.
    + destruct L4 as [(id & v & H1 & H2 & H3)|L4]; [left|by right].
      exists id, v. split_and!; try done. by apply running_cons.
    + destruct L4 as (F1 & Hse & r0 & F2 & F3 & F4). split; [done|]. split; [done|].
      exists r0. split; [done|]. split.
      * intros u Hr0. destruct (F3 u Hr0) as [t' Ht']. exists t'. rewrite Et. by apply commit_ok_cons.
      * intros e Hr0. destruct (F4 e Hr0) as (G1 & G2 & G3). split_and!; [auto| |done].
        rewrite Et. by apply undone_cons.
    + destruct L4 as [(id' & t' & F1 & F2) Hse]. split; [|done].
      exists id', t'. split; [done|]. destruct F2 as (l & t0 & e0 & F2 & F3). rewrite Et, F2.
      exists (In (EvLock run key m) :: l), t0, e0. split; [done|]. by apply only_cons.
  - auto.
  - unfold stuck_ok in *. cbn [a_st b emit with_ch]. rewrite Et. intros Hq. apply upkeep_cons. auto.
Qed.

(** ** An answer *)

Lemma drv_awaits a id q : shape ro a -> drv (a_tr a) = [(id, q)] -> awaits (a_st a) q.
Proof.
  unfold shape. intros Hs Hd. rewrite Hd in Hs.
  destruct (a_st a); try done; cbn; try (by destruct Hs as [Hs _]).
  - by destruct Hs as [(i & [= <- ->]) _].
  - by destruct Hs as [(i & t & m & [= <- ->]) _].
  - destruct Hs as [(i & v & [= <- ->] & _)|[Hs _]]; done.
  - by destruct Hs as [(i & t & u & [= <- ->] & _) _].
  - by destruct Hs as [(i & t & [= <- ->]) _].
  - by destruct Hs as [(i & t & [= <- ->] & _) _].
Qed.

Lemma answer_uncommitted k a e id q : alive ro k a -> inv ro a -> finishing (a_st a) = false ->
  (forall t u, q <> QaCommit t u) \/ (forall i, e <> EvAnswer i ROk) ->
  a_made a !! id = Some q -> closes e id -> ~ committed (In e :: a_tr a).
Proof.
  intros HL [HC _] Hfin Hq Hm Hcl Hc. apply (committed_cons_inv ro) in Hc; [|done].
  destruct Hc as [Hc|[(id' & t' & u & Ei & Ha)|(id' & t' & u & Ei & _)]]; [|injection Ei as ->|discriminate Ei].
  - apply (l_comm _ _ _ HL) in Hc. congruence.
  - destruct Hq as [Hq|Hq]; [|by destruct (Hq id')].
    apply (c_made _ _ HC) in Ha. destruct Hcl as [[r Hcl]|[r Hcl]]; [|done].
    injection Hcl as <- _. rewrite Hm in Ha. injection Ha as ->. by destruct (Hq t' u).
Qed.

Lemma commit_ok_ticket a t u : core ro a -> commit_ok (a_tr a) t u -> a_tk a = Some t.
Proof. intros HC (c & Ha & _). by apply (c_one _ _ HC _ _ _ Ha). Qed.
Lemma finish_ok_ticket a t : core ro a -> finish_ok (a_tr a) t -> a_tk a = Some t.
Proof. intros HC (c & Ha & _). by apply (c_one _ _ HC _ _ _ Ha). Qed.

(** The client is told of a failure. *)
Lemma tell_alive k b s e : idle ro k b -> has_tk b -> s = AFinishFailed \/ s = ARollbackFailed ->
  e = XFinish \/ e = XRollback -> (committed (a_tr b) -> s = AFinishFailed /\ e = XFinish) ->
  upkeep_failed (a_tr b) -> alive ro k (fail b s e).
Proof.
  intros [J1 J2 J3 J4 J5 J6 J7 J8] [t Ht] Hs He Hc Hu.
  unfold fail, do_result, report. cbn [a_res with_res a_st with_st a_tk]. rewrite Ht.
  assert (Hal : alive ro k (emit (with_res (with_st b s) (Some (Fail e))) (Out (OReport (Fail e))))).
  { assert (Hr : is_retry (Fail e) = false) by (by destruct He as [-> | ->]).
    split; try done.
    - cbn. split; [|done]. split; [done|]. split.
      + intros Hcm. apply Hc in Hcm as [_ ->]. auto.
      + destruct He as [-> | ->]; intros [?|[?|?]]; discriminate.
    - unfold shape. cbn [a_st emit with_res with_st]. by destruct Hs as [-> | ->].
    - cbn. intros Hcm. assert (Hcm' : committed (a_tr b)).
      { destruct (decide (s = AFinishFailed)) as [->|]; [|].
        - destruct Hcm as (t' & u & c & H1 & H2). exists t', u, c.
          apply elem_of_cons in H1 as [H1|H1]; [done|]. apply elem_of_cons in H2 as [H2|H2]; done.
        - destruct Hcm as (t' & u & c & H1 & H2). exists t', u, c.
          apply elem_of_cons in H1 as [H1|H1]; [done|]. apply elem_of_cons in H2 as [H2|H2]; done. }
      apply Hc in Hcm' as [-> _]. done.
    - destruct (told_failed (with_res (with_st b s) (Some (Fail e))) e Hr) as [T1 T2].
      unfold counts. rewrite T1, T2. cbn [a_st emit with_res with_st].
      change (retries (with_res (with_st b s) (Some (Fail e)))) with (retries b).
      change (told (with_res (with_st b s) (Some (Fail e)))) with (told b).
      rewrite J7, J8. destruct Hs as [-> | ->]; (split; [exact (eq_sym (Nat.add_0_r k))|done]).
    - intros _. by apply upkeep_cons. }
  destruct Hs as [-> | ->]; exact Hal.
Qed.

Lemma begin_answer k a b id r : alive ro k a -> inv ro a -> inv ro b -> idle ro k b ->
  b = emit (with_ch a (a_ch b)) (In (EvAnswer id r)) ->
  a_made a !! id = Some QaBegin -> a_st a = ABeginSent -> fits a (EvAnswer id r) = true ->
  lives ro k (handle_begin fn ilt ro b r).
Proof.
  intros HL Hi Hib HI Eb Hm Hs Hf.
  assert (Et : a_tr b = In (EvAnswer id r) :: a_tr a) by (by rewrite Eb).
  assert (Hsb : a_st b = ABeginSent) by (by rewrite Eb).
  assert (Hnc : ~ committed (a_tr b)).
  { rewrite Et. apply (answer_uncommitted k a _ id QaBegin); try done; [by rewrite Hs|by left|left; by eexists]. }
  assert (Htk : a_tk b = None).
  { destruct Hib as [_ [Hd|HR]]; [rewrite (i_dead _ _ _ HI) in Hd; done|]. unfold rest in HR. by rewrite Hsb in HR. }
  assert (Hask : asked (a_tr b) id QaBegin).
  { rewrite Et. apply asked_cons. by apply (c_made _ _ (proj1 Hi)). }
  assert (Hgot : got (a_tr b) id r) by (rewrite Et; apply elem_of_list_here).
  unfold handle_begin. rewrite Hsb. cbn in Hf. rewrite Hm in Hf. destruct r as [|n|v|e|e]; try done.
  - left. apply (start_lives fn ilt ro k (with_tk b n) n); try done; [|by left].
    apply (idle_same ro k b); try done. apply core_with_tk; [apply HI|done|]. by exists id.
  - right. apply (begin_over ro k); try done; [|by right].
    exists QaBegin. split; [done|]. right. by exists id, e.
Qed.

Lemma function_answer k a b id t m r : alive ro k a -> inv ro a -> inv ro b -> idle ro k b ->
  b = emit (with_ch a (a_ch b)) (In (EvAnswer id r)) ->
  a_made a !! id = Some (QaFunction t m) -> a_st a = AGetSent -> fits a (EvAnswer id r) = true ->
  alive ro k (handle_function ro b r).
Proof.
  intros HL Hi Hib HI Eb Hm Hs Hf.
  assert (Et : a_tr b = In (EvAnswer id r) :: a_tr a) by (by rewrite Eb).
  assert (Hsb : a_st b = AGetSent) by (by rewrite Eb).
  assert (Hnc : ~ committed (a_tr b)).
  { rewrite Et. apply (answer_uncommitted k a _ id (QaFunction t m)); try done; [by rewrite Hs|by left|left; by eexists]. }
  assert (Htk : has_tk b).
  { destruct Hib as [_ [Hd|HR]]; [rewrite (i_dead _ _ _ HI) in Hd; done|]. unfold rest in HR. by rewrite Hsb in HR. }
  destruct Htk as [t0 Htk]. cbn in Hf. rewrite Hm in Hf. destruct r as [|n|v|e|[e d]]; try done.
  - by apply (function_lives ro k b t0).
  - unfold handle_function. rewrite Hsb. by apply (fail_lives ro k b _ _ t0).
  - unfold handle_function. rewrite Hsb. destruct e; by apply (fail_lives ro k b _ _ t0).
Qed.

Lemma run_answer k a b id v r : alive ro k a -> inv ro a -> inv ro b -> idle ro k b ->
  drv (a_tr a) = [(id, QaRun v)] ->
  b = emit (with_ch a (a_ch b)) (In (EvRan id r)) ->
  a_made a !! id = Some (QaRun v) -> a_st a = AStarted ->
  alive ro k (handle_run ro b r).
Proof.
  intros HL Hi Hib HI Hdr Eb Hm Hs.
  assert (Et : a_tr b = In (EvRan id r) :: a_tr a) by (by rewrite Eb).
  assert (Hsb : a_st b = AStarted) by (by rewrite Eb).
  assert (Hnc : ~ committed (a_tr b)).
  { rewrite Et. apply (answer_uncommitted k a _ id (QaRun v)); try done; [by rewrite Hs|by left|right; by eexists]. }
  assert (Htk : has_tk b).
  { destruct Hib as [_ [Hd|HR]]; [rewrite (i_dead _ _ _ HI) in Hd; done|]. unfold rest in HR. by rewrite Hsb in HR. }
  destruct Htk as [t0 Htk]. unfold handle_run. rewrite Hsb.
  destruct r as [u| |]; try (by apply (fail_lives ro k b _ _ t0)).
  pose proof (l_shape _ _ _ HL) as Hsh. unfold shape in Hsh. rewrite Hs, Hdr in Hsh.
  destruct Hsh as [(i & v' & [= <- <-] & Hrun & Hset)|[? _]]; [|done].
  apply (commit_lives ro k _ t0 u); try done.
  - apply (idle_same ro k b); try done. pose proof (i_core _ _ _ HI) as [H1 H2 H3 H4 H5 H8 H7 H6].
    split; try done. cbn. intros u' [= <-]. exists id, v. split.
    + rewrite Et. apply asked_cons. by apply (c_made _ _ (proj1 Hi)).
    + rewrite Et. apply elem_of_list_here.
  - cbn. rewrite Et. destruct Hrun as (l & v' & e & -> & Ho).
    exists (In (EvRan id (Ran u)) :: l), id, v', e. split; [done|]. split; [by apply only_cons|].
    apply elem_of_list_here.
Qed.

Lemma commit_answer k a b id t u r : alive ro k a -> inv ro a -> inv ro b -> idle ro k b ->
  drv (a_tr a) = [(id, QaCommit t u)] ->
  b = emit (with_ch a (a_ch b)) (In (EvAnswer id r)) ->
  a_made a !! id = Some (QaCommit t u) -> a_st a = ACommitSent -> fits a (EvAnswer id r) = true ->
  alive ro k (handle_commit b r).
Proof.
  intros HL Hi Hib HI Hdr Eb Hm Hs Hf.
  assert (Et : a_tr b = In (EvAnswer id r) :: a_tr a) by (by rewrite Eb).
  assert (Hsb : a_st b = ACommitSent) by (by rewrite Eb).
  assert (Hnc : r <> ROk -> ~ committed (a_tr b)).
  { intros Hr. rewrite Et. apply (answer_uncommitted k a _ id (QaCommit t u)); try done.
    - by rewrite Hs.
    - right. intros i [= _ ?]. done.
    - left. by eexists. }
  assert (Htk : has_tk b).
  { destruct Hib as [_ [Hd|HR]]; [rewrite (i_dead _ _ _ HI) in Hd; done|]. unfold rest in HR. rewrite Hsb in HR.
    destruct HR as (t' & u' & c & HR & _). by exists t'. }
  destruct Htk as [t0 Htk]. cbn in Hf. rewrite Hm in Hf. unfold handle_commit. rewrite Hsb.
  destruct r as [|n|v|e|[e d]]; try done.
  - pose proof (l_shape _ _ _ HL) as Hsh. unfold shape in Hsh. rewrite Hs, Hdr in Hsh.
    destruct Hsh as [(i & t' & u' & [= <- <- ->] & Hres) Hset].
    apply (finish_lives ro k b t0 (Done u')); try done; [by left|by rewrite Eb|].
    intros u'' [= <-]. exists t, id. split.
    + rewrite Et. apply asked_cons. by apply (c_made _ _ (proj1 Hi)).
    + rewrite Et. apply elem_of_list_here.
  - destruct e; apply (fail_lives ro k b _ _ t0); try done; by apply Hnc.
  - destruct e; apply (fail_lives ro k b _ _ t0); try done; by apply Hnc.
Qed.

Lemma finish_answer k a b id t r : alive ro k a -> inv ro a -> inv ro b -> idle ro k b ->
  b = emit (with_ch a (a_ch b)) (In (EvAnswer id r)) ->
  a_made a !! id = Some (QaFinish t) -> a_st a = AFinishSent -> fits a (EvAnswer id r) = true ->
  alive ro k (handle_finish b r).
Proof.
  intros HL Hi Hib HI Eb Hm Hs Hf.
  assert (Et : a_tr b = In (EvAnswer id r) :: a_tr a) by (by rewrite Eb).
  assert (Hsb : a_st b = AFinishSent) by (by rewrite Eb).
  assert (Htk : has_tk b).
  { destruct Hib as [_ [Hd|HR]]; [rewrite (i_dead _ _ _ HI) in Hd; done|]. unfold rest in HR. rewrite Hsb in HR.
    apply HR. }
  assert (Hask : asked (a_tr b) id (QaFinish t)).
  { rewrite Et. apply asked_cons. by apply (c_made _ _ (proj1 Hi)). }
  assert (Hgot : got (a_tr b) id r) by (rewrite Et; apply elem_of_list_here).
  assert (Hcb : committed (a_tr b) -> committed (a_tr a)).
  { rewrite Et. intros Hc. apply (committed_cons_inv ro) in Hc; [|apply Hi].
    destruct Hc as [?|[(id' & t' & u & Ei & Ha)|(id' & t' & u & Ei & _)]]; [done|injection Ei as <- _|discriminate Ei].
    apply (c_made _ _ (proj1 Hi)) in Ha. congruence. }
  cbn in Hf. rewrite Hm in Hf. unfold handle_finish. rewrite Hsb. destruct r as [|n|v|e|e]; try done.
  - pose proof (l_shape _ _ _ HL) as Hsh. unfold shape in Hsh. rewrite Hs in Hsh.
    destruct Hsh as (_ & Hset & r0 & Hr0 & Hdone & Hfail).
    destruct Htk as [t0 Ht]. unfold do_result. cbn [a_res with_st a_st a_tk].
    assert (a_res b = Some r0) as -> by (by rewrite Eb). rewrite Ht.
    unfold report. cbn [a_res with_st a_st a_tk].
    assert (a_res b = Some r0) as -> by (by rewrite Eb). rewrite Ht.
    destruct HI as [J1 J2 J3 J4 J5 J6 J7 J8].
    assert (Hcm : forall i, committed (Out (OReport i) :: a_tr b) -> committed (a_tr b)).
    { intros i (t' & u & c & H1 & H2). exists t', u, c.
      apply elem_of_cons in H1 as [H1|H1]; [done|]. apply elem_of_cons in H2 as [H2|H2]; done. }
    assert (Hret : is_retry r0 = false).
    { destruct r0 as [|e]; [done|]. destruct (Hfail e eq_refl) as (_ & _ & ?). by destruct e. }
    split; try done.
    + cbn. split; [|done]. split_and!.
      * intros u ->. destruct (Hdone u eq_refl) as [t' Ht']. exists t'.
        assert (commit_ok (a_tr b) t' (payload u)) as Hok by (rewrite Et; by apply commit_ok_cons).
        split; [done|]. assert (finish_ok (a_tr b) t) as Hfo by (by exists id).
        apply (commit_ok_ticket _ _ _ J1) in Hok. pose proof (finish_ok_ticket _ _ J1 Hfo). congruence.
      * intros Hc. destruct r0 as [u|e]; [left; by exists u|]. destruct (Hfail e eq_refl) as (Hn & _).
        by apply Hcb in Hc.
      * intros He. destruct r0 as [u|e]; [destruct He as [?|[?|?]]; done|].
        destruct (Hfail e eq_refl) as (_ & Hun & _). rewrite Et. by apply undone_cons.
    + assert (Ht1 : told (emit (with_st b AFinishComplete) (Out (OReport r0))) = r0 :: told b).
      { unfold told, reports. cbn. by rewrite Hret. }
      assert (Ht2 : retries (emit (with_st b AFinishComplete) (Out (OReport r0))) = retries b).
      { unfold retries, reports. cbn. by rewrite Hret. }
      unfold counts. rewrite Ht1, Ht2, J7, J8. split; [exact (eq_sym (Nat.add_0_r k))|done].
    + intros [?|?]; done.
  - apply (tell_alive k); try done; [by left|by left|].
    exists (QaFinish t). split; [done|]. right. by exists id, e.
Qed.

Lemma rollback_answer k a b id t r : alive ro k a -> inv ro a -> inv ro b -> idle ro k b ->
  drv (a_tr a) = [(id, QaRollback t)] ->
  b = emit (with_ch a (a_ch b)) (In (EvAnswer id r)) ->
  a_made a !! id = Some (QaRollback t) -> a_st a = ARollbackSent -> fits a (EvAnswer id r) = true ->
  alive ro k (handle_rollback b r).
Proof.
  intros HL Hi Hib HI Hdr Eb Hm Hs Hf.
  assert (Et : a_tr b = In (EvAnswer id r) :: a_tr a) by (by rewrite Eb).
  assert (Hsb : a_st b = ARollbackSent) by (by rewrite Eb).
  assert (Hnc : ~ committed (a_tr b)).
  { rewrite Et. apply (answer_uncommitted k a _ id (QaRollback t)); try done; [by rewrite Hs|by left|left; by eexists]. }
  assert (Htk : has_tk b /\ (a_perm b = true -> failed b)).
  { destruct Hib as [_ [Hd|HR]]; [rewrite (i_dead _ _ _ HI) in Hd; done|]. unfold rest in HR. by rewrite Hsb in HR. }
  destruct Htk as [Htk Hperm].
  assert (Hask : asked (a_tr b) id (QaRollback t)).
  { rewrite Et. apply asked_cons. by apply (c_made _ _ (proj1 Hi)). }
  assert (Hgot : got (a_tr b) id r) by (rewrite Et; apply elem_of_list_here).
  pose proof (l_shape _ _ _ HL) as Hsh. unfold shape in Hsh. rewrite Hs, Hdr in Hsh.
  destruct Hsh as [(i & t' & [= <- <-] & Hroll) [Hset Hre]].
  cbn in Hf. rewrite Hm in Hf. unfold handle_rollback. rewrite Hsb. destruct r as [|n|v|e|e]; try done.
  - cbn [a_perm with_st]. destruct (a_perm b) eqn:Hp.
    + destruct (Hperm eq_refl) as [e He]. destruct Htk as [t0 Ht].
      apply (finish_lives ro k _ t0 (Fail e)); try done; [|by right|].
      * apply (idle_same ro k b); try done. apply (core_same _ b); try done. apply HI.
      * intros e' [= <-]. split_and!; [done| |].
        -- cbn [a_tr with_st]. rewrite Et. destruct Hroll as (l & t1 & e1 & -> & Ho).
           exists (In (EvAnswer id ROk) :: l), id, t1, e1. split; [done|].
           split; [apply elem_of_list_here|by apply only_cons].
        -- intros ->. apply Hre. rewrite <- He. by rewrite Eb.
    + unfold do_result, report. cbn [a_res with_res a_st with_st a_tk]. destruct Htk as [t0 ->].
      destruct HI as [J1 J2 J3 J4 J5 J6 J7 J8].
      split; try done.
      * cbn. split; [|done]. split; [done|]. split; [done|]. intros [?|[?|?]]; discriminate.
      * intros Hc. exfalso. revert Hc. by apply not_committed_out.
      * split; cbn; [|change (length (told b) = 0%nat); by rewrite J7].
        change (S (retries b) = (k + 1)%nat). rewrite J8. lia.
      * intros [?|?]; done.
  - apply (tell_alive k); try done; [by right|by right|].
    exists (QaRollback t). split; [done|]. right. by exists id, e.
Qed.

(** ** Any call *)

Lemma answered_pending a e id q : core ro a -> a_made a !! id = Some q -> closes e id ->
  once (In e :: a_tr a) -> (id, q) ∈ pending (a_tr a).
Proof.
  intros HC Hm Hcl Ho. apply asked_pending; [by apply (c_made _ _ HC)|].
  unfold once in Ho. intros Hin.
  destruct Hcl as [[r ->]|[r ->]]; cbn in Ho; apply NoDup_cons in Ho as [Ho _]; by apply Ho.
Qed.

Lemma step_lives k a e ch : alive ro k a -> inv ro a -> e <> EvExec ->
  once (a_tr (astep fn ilt ro a (e, ch))) -> lives ro k (astep fn ilt ro a (e, ch)).
Proof.
  intros HL Hi He. unfold astep. rewrite (l_dead _ _ _ HL). cbn [fst snd].
  destruct (fits a e) eqn:Hf; [|by left].
  set (b := emit (with_ch a ch) (In e)). intros Ho.
  assert (Hob : once (a_tr b)).
  { destruct (dispatch_grows fn ilt ro b e) as [l El]. rewrite El in Ho. by eapply once_suffix. }
  assert (Hib : inv ro b) by (by apply event_inv; [|apply HL|]).
  assert (Eb : b = emit (with_ch a (a_ch b)) (In e)) by done.
  destruct e as [|id r|id r|run key m]; [done|..]; cbn [dispatch].
  - change (a_made b) with (a_made a).
    destruct (a_made a !! id) as [q|] eqn:Hm; [|by cbn in Hf; rewrite Hm in Hf].
    assert (Hcl : closes (EvAnswer id r) id) by (left; by eexists).
    pose proof (answered_pending a _ id q (proj1 Hi) Hm Hcl Hob) as Hpen.
    destruct (driving q) eqn:Hdr.
    + destruct (answer_idle ro k a b (EvAnswer id r) id q HL (proj1 Hib)) as [HI Hd]; try done.
      pose proof (drv_awaits a id q (l_shape _ _ _ HL) Hd) as Haw.
      destruct q; try done; destruct (a_st a) eqn:Hs; try done.
      * by eapply (begin_answer k a b id).
      * left. by eapply (function_answer k a b id).
      * cbn in Hf. rewrite Hm in Hf. by destruct r.
      * left. by eapply (commit_answer k a b id).
      * left. by eapply (rollback_answer k a b id).
      * left. by eapply (finish_answer k a b id).
    + destruct q as [| |w t key m| | | |]; try done. left.
      apply (lock_answer_lives ro k a b id w t key m); try done. apply Hib.
  - cbn in Hf. destruct (a_made a !! id) as [q|] eqn:Hm; [|done]. destruct q; try done.
    assert (Hcl : closes (EvRan id r) id) by (right; by eexists).
    pose proof (answered_pending a _ id _ (proj1 Hi) Hm Hcl Hob) as Hpen.
    destruct (answer_idle ro k a b (EvRan id r) id _ HL (proj1 Hib) eq_refl Hcl Hpen) as [HI Hd]; try done.
    pose proof (drv_awaits a id _ (l_shape _ _ _ HL) Hd) as Haw.
    left. destruct (a_st a) eqn:Hs; try done. by eapply (run_answer k a b id).
  - left. assert (HLb : alive ro k b) by (by apply quiet_alive).
    destruct (decide (a_st b = AStarted)) as [Hs|Hs].
    + apply runner_lock_lives; [by apply alive_busy|apply HLb].
    + unfold take_lock. destruct (a_tk b) eqn:Etk; [by destruct (a_st b)|].
      cbn in Hf. destruct (a_made a !! run) as [q|] eqn:Em; [|done].
      destruct q; try done. apply (c_made _ _ (proj1 Hi)) in Em.
      by destruct (c_run _ _ (proj1 Hi) _ _ Em).
Qed.

(** ** The server's calls *)

Lemma exec_idle k k' a ch : alive ro k a -> inv ro a ->
  (a_st a = AInit /\ k' = k) \/ (a_st a = ARollbackComplete /\ k' = S k) ->
  idle ro k' (emit (with_ch a ch) (In EvExec)).
Proof.
  intros [L1 L2 L3 L4 L5 [L6 L6'] L7] Hi Hs.
  assert (HC : core ro (emit (with_ch a ch) (In EvExec))).
  { apply core_emit; try done. apply (core_same _ a); try done. apply Hi. }
  assert (Hsh : drv (a_tr a) = [] /\ settled a).
  { unfold shape in L4. by destruct Hs as [[Hs _]|[Hs _]]; rewrite Hs in L4. }
  destruct Hsh as [Hd Hset].
  split; try done.
  - change (told a = []). destruct Hs as [[Hs _]|[Hs _]]; rewrite Hs in L6'; cbn in L6'; by destruct (told a).
  - change (retries a = k'). rewrite L6. destruct Hs as [[Hs ->]|[Hs ->]]; rewrite Hs.
    + exact (Nat.add_0_r k).
    + exact (Nat.add_1_r k).
Qed.

Lemma exec_uncommitted k a : alive ro k a -> inv ro a -> finishing (a_st a) = false ->
  ~ committed (In EvExec :: a_tr a).
Proof.
  intros HL Hi Hf Hc. apply (committed_cons_inv ro) in Hc; [|apply Hi].
  destruct Hc as [Hc|[(id' & t' & u & Ei & Ha)|(id' & t' & u & Ei & _)]]; [|discriminate Ei..].
  apply (l_comm _ _ _ HL) in Hc. congruence.
Qed.

Lemma request_lives k a ch : alive ro k a -> inv ro a -> a_st a = AInit ->
  lives ro k (astep fn ilt ro a (EvExec, ch)).
Proof.
  intros HL Hi Hs. unfold astep. rewrite (l_dead _ _ _ HL). cbn [fst snd fits dispatch].
  apply begin_lives; [apply (exec_idle k); [done|done|by left]|..]; try done.
  - destruct Hi as [_ [Hd|HR]]; [rewrite (l_dead _ _ _ HL) in Hd; done|]. unfold rest in HR. by rewrite Hs in HR.
  - apply (exec_uncommitted k a); try done. by rewrite Hs.
Qed.

Lemma retry_lives k a ch : alive ro k a -> inv ro a -> a_st a = ARollbackComplete ->
  alive ro (S k) (astep fn ilt ro a (EvExec, ch)).
Proof.
  intros HL Hi Hs. unfold astep. rewrite (l_dead _ _ _ HL). cbn [fst snd fits dispatch].
  unfold exec. cbn [a_st emit with_ch]. rewrite Hs.
  assert (Htk : has_tk a).
  { destruct Hi as [_ [Hd|HR]]; [rewrite (l_dead _ _ _ HL) in Hd; done|]. unfold rest in HR. by rewrite Hs in HR. }
  destruct Htk as [t Ht].
  pose proof (exec_idle k (S k) a ch HL Hi (or_intror (conj Hs eq_refl))) as HI.
  apply (start_lives fn ilt ro (S k) _ t); try done.
  - eapply (idle_same ro (S k)); [exact HI|..]; try done.
    eapply (core_same _ _); [apply HI|..]; done.
  - right. done.
  - apply (exec_uncommitted k a); try done. by rewrite Hs.
Qed.

Definition sound (v : server) : Prop :=
  (inv ro (v_ag v) /\ alive ro (v_retried v) (v_ag v) /\
   (v_gone v = true -> a_st (v_ag v) = AFinishComplete)) \/
  over ro (v_ag v).

Lemma told_report a r : r ∈ told a -> Out (OReport r) ∈ a_tr a /\ is_retry r = false.
Proof.
  unfold told, reports. intros H. apply elem_of_list_filter in H as [Hr H]. split; [|done].
  apply elem_of_list_omap in H as (i & Hi & E). destruct i as [e|[| |r'|]]; try done. by injection E as ->.
Qed.

Lemma released_told lua a n : (n < releases lua a)%nat -> told a <> [].
Proof. unfold releases. destruct (told a); [cbn; lia|done]. Qed.

Lemma sstep_grows lua v e : grows (v_ag v) (v_ag (sstep fn ilt ro lua v e)).
Proof.
  assert (Hst : forall a p, grows a (astep fn ilt ro a p)).
  { intros a p. unfold astep. destruct (a_dead a); [apply grows_refl|].
    destruct (fits a p.1); [|apply grows_refl]. eapply grows_trans; [|apply dispatch_grows].
    by eapply grows_cons. }
  unfold sstep. destruct (a_dead (v_ag v)); [apply grows_refl|]. destruct e as [ch|ch| |e ch].
  - destruct (a_st (v_ag v)); try apply grows_refl. apply Hst.
  - destruct (v_retried v <? _)%nat; [|apply grows_refl].
    destruct (v_gone v); [by eapply grows_cons|apply Hst].
  - destruct (v_cleaned v <? _)%nat; [|apply grows_refl].
    destruct (v_gone v); [apply grows_refl|]. destruct (bool_decide _); [apply grows_refl|by eapply grows_cons].
  - destruct e; try apply grows_refl.
    1-3: destruct (fits _ _); [|apply grows_refl];
      destruct (v_gone v); [by eexists [_; _]|apply Hst].
Qed.

Lemma sstep_sound lua v e : sound v -> once (a_tr (v_ag (sstep fn ilt ro lua v e))) ->
  sound (sstep fn ilt ro lua v e).
Proof.
  intros Hv. unfold sstep. destruct (a_dead (v_ag v)) eqn:Hd; [done|].
  destruct Hv as [(Hi & HL & Hg)|Hv]; [|by destruct Hv as [Hv _]; congruence].
  assert (Hkeep : sound v) by (by left).
  destruct e as [ch|ch| |e ch].
  - destruct (a_st (v_ag v)) eqn:Hs; try done. intros _.
    destruct (request_lives _ _ ch HL Hi Hs) as [H|H]; [left|by right].
    split; [by apply step_inv|]. split; [exact H|]. cbn. intros Hgo. by specialize (Hg Hgo).
  - destruct (v_retried v <? _)%nat eqn:Hr; [|done]. apply Nat.ltb_lt in Hr.
    destruct (l_counts _ _ _ HL) as [Hc _].
    destruct (decide (a_st (v_ag v) = ARollbackComplete)) as [Hs|Hs].
    2:{ rewrite bool_decide_eq_false_2 in Hc by done. lia. }
    destruct (v_gone v) eqn:Hgo; [specialize (Hg eq_refl); congruence|].
    intros _. left. split; [by apply step_inv|]. split; [by apply retry_lives|cbn; congruence].
  - destruct (v_cleaned v <? _)%nat eqn:Hc; [|done]. apply Nat.ltb_lt in Hc.
    apply released_told in Hc.
    destruct (v_gone v) eqn:Hgo; [intros _; left; split; [done|]; split; [done|by intros _; apply Hg]|].
    destruct (decide (a_st (v_ag v) = AFinishComplete)) as [Hs|Hs].
    { rewrite bool_decide_eq_true_2 by done. intros _. by left. }
    rewrite bool_decide_eq_false_2 by done. intros _.
    assert (Hu : upkeep_failed (a_tr (v_ag v))).
    { apply (l_stuck _ _ _ HL). destruct (l_counts _ _ _ HL) as [_ Hn].
      destruct (a_st (v_ag v)); cbn in Hn; try (by destruct (told (v_ag v))); try done; first [by left|by right]. }
    right. split; [done|]. split; [cbn; split; [done|apply HL]|].
    change (told (v_ag (set_agent _ (die (v_ag v) Unfinished)))) with (told (v_ag v)).
    destruct (l_counts _ _ _ HL) as [_ ->]. destruct (final _); lia.
  - assert (Hgen : e <> EvExec -> once (a_tr (v_ag (if fits (v_ag v) e then
              if v_gone v then set_agent v (die (emit (v_ag v) (In e)) Freed)
              else set_agent v (astep fn ilt ro (v_ag v) (e, ch)) else v))) ->
            sound (if fits (v_ag v) e then
              if v_gone v then set_agent v (die (emit (v_ag v) (In e)) Freed)
              else set_agent v (astep fn ilt ro (v_ag v) (e, ch)) else v)).
    2:{ destruct e; [done|by apply Hgen..]. }
    intros He. destruct (fits (v_ag v) e) eqn:Hf; [|done]. destruct (v_gone v) eqn:Hgo.
    + intros _. specialize (Hg eq_refl).
      destruct (l_counts _ _ _ HL) as [_ Hn]. rewrite Hg in Hn. cbn in Hn.
      destruct (told (v_ag v)) as [|r [|]] eqn:Htold; try done.
      assert (Hr : r ∈ told (v_ag v)) by (rewrite Htold; apply elem_of_list_here).
      apply told_report in Hr as [Hr1 Hr2].
      right. split; [done|]. split.
      * cbn. split; [|split; [done|apply HL]]. exists r. split; [by apply elem_of_list_further|done].
      * change (told (v_ag (set_agent v (die (emit (v_ag v) (In e)) Freed)))) with (told (v_ag v)).
        rewrite Htold. done.
    + intros Ho. destruct (step_lives _ _ e ch HL Hi He Ho) as [H|H]; [left|by right].
      split; [by apply step_inv|]. split; [exact H|]. cbn. congruence.
Qed.

Lemma init_sound : sound server0.
Proof.
  left. split; [apply init_inv|]. split; [|done]. split; try done.
  - constructor.
  - intros (t & u & c & H & _). by apply elem_of_nil in H.
  - by intros [?|?].
Qed.

Lemma srun_sound lua l : once (a_tr (v_ag (srun fn ilt ro lua l))) -> sound (srun fn ilt ro lua l).
Proof.
  unfold srun. assert (H : forall v, sound v -> once (a_tr (v_ag (foldl (sstep fn ilt ro lua) v l))) ->
    sound (foldl (sstep fn ilt ro lua) v l)).
  { induction l as [|e l IH]; intros v Hv Ho; [done|]. cbn [foldl] in *. apply IH; [|done].
    apply sstep_sound; [done|].
    assert (Hgr : forall l v, grows (v_ag v) (v_ag (foldl (sstep fn ilt ro lua) v l))).
    { clear. induction l as [|e l IH]; intros v; [apply grows_refl|]. cbn [foldl].
      eapply grows_trans; [apply sstep_grows|apply IH]. }
    destruct (Hgr l (sstep fn ilt ro lua v e)) as [x Hx]. rewrite Hx in Ho. by eapply once_suffix. }
  apply H, init_sound.
Qed.

End Serve.
