(** The properties C32-C37 and C54 of the PArSEC shard, derived from the invariant. *)
From stdpp Require Import base option list gmap fin_maps fin_sets relations sorting.
From Coq Require Import NArith Lia.
From Verif Require Import Base ParsecShardModel ParsecShardSpec ParsecShardProofs ParsecShardSteps
  ParsecShardRuns.
Open Scope N_scope.

(** ** C32 *)

Lemma exclusion s a b k m :
  reachable s -> holds s a k Write -> holds s b k m -> a = b.
Proof.
  intros H%reachable_inv Ha%held_holds Hb%held_holds. eapply lock_exclusive; eassumption.
Qed.

(** ** C33 and C34 *)

Lemma waits_begun s a k m rid : inv s -> waits s a k m rid -> in_state s a Begun.
Proof.
  intros H Hw. assert (queued s a k) as (t & Ht & Hk).
  { apply (i_q _ _ _ _ H), elem_of_list_fmap. exists (QEnt a m rid). auto. }
  exists t. split; [done|]. destruct (decide (t_state t = Begun)); [done|].
  rewrite (i_idle _ _ _ _ H _ _ Ht) in Hk by done. set_solver.
Qed.

Lemma prepared_waits_not s a k m rid :
  reachable s -> in_state s a Prepared -> ~ waits s a k m rid.
Proof.
  intros H%reachable_inv (t & Ht & Hp) Hw.
  destruct (waits_begun s a k m rid H Hw) as (t' & Ht' & Hb). congruence.
Qed.

Lemma waits_for_order_inv s a b : inv s -> waits_for s a b -> b < a \/ in_state s b Prepared.
Proof.
  intros H [Hne (k & ma & rid & Hw & [(mb & Hb & Hc)|(mb & rid' & Hb & L)])]; [|now left].
  apply held_holds in Hb.
  destruct (i_order _ _ _ _ H k (QEnt a ma rid) b mb Hw Hb Hc) as [Hp|[L|E]];
    [discriminate|now right|now left|]. cbn in E. congruence.
Qed.

Lemma waits_for_order s a b : reachable s -> waits_for s a b -> b < a \/ in_state s b Prepared.
Proof. intros H. now apply waits_for_order_inv, reachable_inv. Qed.

Lemma waits_for_waits s a b : waits_for s a b -> exists k m rid, waits s a k m rid.
Proof. intros [_ (k & m & rid & Hw & _)]. eauto. Qed.

(** No cycle, for one shard or several. *)
Lemma chain_older (R : ticket_no -> ticket_no -> Prop) (stop : ticket_no -> Prop) :
  (forall a b, R a b -> b < a \/ stop b) -> (forall a b, stop a -> ~ R a b) ->
  forall a b, tc R a b -> b < a \/ stop b.
Proof.
  intros H1 H2 a b H. induction H as [a b H|a b c H Hbc IH]; [auto|].
  destruct (H1 _ _ H) as [L|Hs].
  - destruct IH as [L'|]; [left; lia|now right].
  - exfalso. inversion Hbc; subst; eapply H2; eassumption.
Qed.

Lemma no_cycle (R : ticket_no -> ticket_no -> Prop) (stop : ticket_no -> Prop) :
  (forall a b, R a b -> b < a \/ stop b) -> (forall a b, stop a -> ~ R a b) ->
  forall a, ~ tc R a a.
Proof.
  intros H1 H2 a H. destruct (chain_older R stop H1 H2 a a H) as [L|Hs]; [lia|].
  inversion H; subst; eapply H2; eassumption.
Qed.

Lemma no_deadlock s a : reachable s -> ~ tc (waits_for s) a a.
Proof.
  intros H. apply (no_cycle _ (fun b => in_state s b Prepared)).
  - intros b c. now apply waits_for_order.
  - intros b c Hp (k & m & rid & Hw)%waits_for_waits. now apply (prepared_waits_not s b k m rid).
Qed.

Lemma no_deadlock_shards (ss : list shard) a :
  (forall s, s ∈ ss -> reachable s) ->
  (forall s s' b k m rid, s ∈ ss -> s' ∈ ss -> in_state s b Prepared -> ~ waits s' b k m rid) ->
  ~ tc (fun b c => exists s, s ∈ ss /\ waits_for s b c) a a.
Proof.
  intros Hr Hp. apply (no_cycle _ (fun b => exists s, s ∈ ss /\ in_state s b Prepared)).
  - intros b c (s & Hs & Hw). destruct (waits_for_order s b c (Hr s Hs) Hw); [now left|right; eauto].
  - intros b c (s & Hs & Hb) (s' & Hs' & (k & m & rid & Hw)%waits_for_waits).
    now apply (Hp s s' b k m rid).
Qed.

Lemma oldest_blocked s k tn m rid :
  reachable s -> waits s tn k m rid ->
  (forall tn' m' rid', waits s tn' k m' rid' -> tn <= tn') ->
  exists h mh, holds s h k mh /\ h <> tn /\ conflict mh m.
Proof.
  intros H%reachable_inv Hw Hmin.
  destruct (e_queue (el s k)) as [|x q] eqn:Eq.
  { unfold waits in Hw. rewrite Eq in Hw. now apply elem_of_nil in Hw. }
  assert (x = QEnt tn m rid) as ->.
  { assert (Hx : x ∈ e_queue (el s k)) by (rewrite Eq; left).
    apply (queue_unique _ _ _ (i_sorted _ _ _ _ H k) Hx Hw). cbn.
    assert (tn <= q_tn x) as L.
    { destruct x as [tx mx rx]. apply (Hmin tx mx rx). exact Hx. }
    pose proof (i_sorted _ _ _ _ H k) as Hs. unfold qtns in Hs. rewrite Eq in Hs. cbn in Hs.
    apply StronglySorted_inv in Hs as [_ Hs]. rewrite Forall_forall in Hs.
    unfold waits in Hw. rewrite Eq in Hw. apply elem_of_cons in Hw as [<-|Hw]; [done|].
    assert (q_tn x < tn); [|lia]. apply Hs, elem_of_list_fmap. exists (QEnt tn m rid). auto. }
  pose proof (i_head _ _ _ _ H k (QEnt tn m rid) q (not_elem_of_empty k) Eq) as Hb.
  assert (Hwr : forall w, e_writer (el s k) = Some w ->
            exists h mh, holds s h k mh /\ h <> tn /\ conflict mh m).
  { intros w Ew. apply (i_wr _ _ _ _ H) in Ew. exists w, Write. split; [now apply held_holds|].
    split; [|now left]. intros ->.
    destruct (i_up _ _ _ _ H k (QEnt tn m rid) Write Hw Ew) as [[=] _]. }
  unfold blocked in Hb. cbn in Hb. destruct m.
  - destruct (e_writer (el s k)) as [w|] eqn:Ew; [eauto|contradiction].
  - destruct Hb as [Hb|(r & Hr & Hne)].
    + destruct (e_writer (el s k)) as [w|] eqn:Ew; [eauto|contradiction].
    + exists r, Read. split; [apply held_holds, (i_rd _ _ _ _ H), Hr|]. split; [done|now right].
Qed.

Lemma waiting_has_reason s a k m rid :
  reachable s -> waits s a k m rid -> exists b, waits_for s a b.
Proof.
  intros Hr Hw. pose proof (reachable_inv s Hr) as H.
  destruct (e_queue (el s k)) as [|x q] eqn:Eq.
  { unfold waits in Hw. rewrite Eq in Hw. now apply elem_of_nil in Hw. }
  destruct x as [tx mx rx].
  assert (Hx : waits s tx k mx rx) by (unfold waits; rewrite Eq; left).
  pose proof (i_sorted _ _ _ _ H k) as Hs. unfold qtns in Hs. rewrite Eq in Hs. cbn in Hs.
  apply StronglySorted_inv in Hs as [_ Hs]. rewrite Forall_forall in Hs.
  pose proof Hw as Hw0. unfold waits in Hw. rewrite Eq in Hw. apply elem_of_cons in Hw as [E|Hw].
  - injection E as -> -> ->.
    destruct (oldest_blocked s k tx mx rx Hr Hx) as (h & mh & Hh & Hne & Hc).
    { intros tn' m' rid' Hw'. unfold waits in Hw'. rewrite Eq in Hw'.
      apply elem_of_cons in Hw' as [[= -> -> ->]|Hw']; [lia|].
      assert (tx < tn'); [|lia]. apply Hs, elem_of_list_fmap. exists (QEnt tn' m' rid'). auto. }
    exists h. split; [congruence|]. exists k, mx, rx. split; [done|]. left. eauto.
  - assert (tx < a) as L. { apply Hs, elem_of_list_fmap. exists (QEnt a m rid). auto. }
    exists tx. split; [lia|]. exists k, m, rid. split; [done|]. right. eauto.
Qed.

(** Following the waits-for relation always reaches a ticket that waits for nothing. *)
Lemma progress s a k m rid :
  reachable s -> waits s a k m rid ->
  exists b, tc (waits_for s) a b /\ forall k' m' rid', ~ waits s b k' m' rid'.
Proof.
  intros Hr. revert k m rid. induction a as [a IH] using (well_founded_induction N.lt_wf_0).
  intros k m rid Hw. destruct (waiting_has_reason s a k m rid Hr Hw) as [b Hb].
  destruct (waits_for_order s a b Hr Hb) as [L|Hp].
  - destruct (decide (exists k' : key, k' ∈ dom (s_st s) /\ b ∈ qtns s k')) as [Hq|Hq].
    + destruct Hq as (k' & _ & Hq). apply elem_of_list_fmap in Hq as ([tb mb rb] & -> & Hq).
      destruct (IH tb L k' mb rb Hq) as (c & Hc & Hn). exists c. split; [|exact Hn].
      eapply tc_l; eassumption.
    + exists b. split; [now apply tc_once|]. intros k' m' rid' Hw'. apply Hq. exists k'.
      split.
      * unfold waits, el in Hw'. destruct (s_st s !! k') eqn:E; [apply elem_of_dom; eauto|].
        cbn in Hw'. now apply elem_of_nil in Hw'.
      * apply elem_of_list_fmap. exists (QEnt b m' rid'). auto.
  - exists b. split; [now apply tc_once|]. intros k' m' rid'. now apply prepared_waits_not.
Qed.

Lemma oldest_never_waits s a k m rid :
  reachable s -> waits s a k m rid ->
  (forall b : ticket_no, b < a -> s_tk s !! b = None) -> exists b, waits_for s a b /\ in_state s b Prepared.
Proof.
  intros Hr Hw Ho. destruct (waiting_has_reason s a k m rid Hr Hw) as [b Hb]. exists b.
  split; [exact Hb|]. destruct (waits_for_order s a b Hr Hb) as [L|Hp]; [|exact Hp].
  specialize (Ho b L). destruct Hb as [_ (k' & ma & rid' & _ & [(mb & (t & Ht & _) & _)|(mb & r2 & Hw2 & _)])].
  - congruence.
  - destruct (waits_begun s b k' mb r2 (reachable_inv s Hr) Hw2) as (t & Ht & _). congruence.
Qed.

(** ** C35 *)

Lemma step_not_fatal s o s' ev : inv s -> step s o = Done (s', ev) -> inv s'.
Proof.
  intros H E. destruct (step_inv s o H) as [(x & y & Ex & Hx)|[Ex _]]; rewrite Ex in E; [|discriminate].
  now injection E as <- <-.
Qed.

Lemma prepared_untouched s tn t o s' ev :
  reachable s -> s_tk s !! tn = Some t -> t_state t = Prepared ->
  o <> OCommit tn -> o <> ORollback tn -> step s o = Done (s', ev) ->
  s_tk s' !! tn = Some t.
Proof.
  intros Hr%reachable_inv Ht Hp Hc Hb E. pose proof Hr as H.
  assert (Hq : t_queued t = ∅) by (apply (i_idle _ _ _ _ H _ _ Ht); congruence).
  destruct o as [rid tn' b k m first|tn' b upd|tn'|tn'|tn'|b]; cbn [step] in E.
  - pose proof (try_lock_outcome s rid tn' b k m first H) as Ho. rewrite E in Ho.
    inversion Ho as [|Hn|t1 e d Ht1 Hc1|f s0 t1 s1 ev1 Ht0 Hst Hs0 Hh Hk H0 H1 Hs]; subst; try done.
    assert (Hne : tn <> tn').
    { intros ->. destruct Hs0 as [[_ ->]|(_ & Hn & _)]; congruence. }
    assert (Ht2 : s_tk (enqueue s0 rid tn' b k m t1) !! tn = Some t).
    { unfold enqueue. cbn. rewrite lookup_insert_ne by congruence.
      destruct Hs0 as [[_ ->]|(_ & _ & _ & ->)]; [done|]. cbn. now rewrite lookup_insert_ne by congruence. }
    destruct (v_tk _ _ _ _ Hs tn t Ht2) as (t' & Ht' & [Hk'|(C & _)]); [|contradiction].
    rewrite Ht'. f_equal. destruct Hk' as (_ & _ & _ & _ & _ & _ & Hk'). auto.
  - pose proof (prepare_outcome_ok s tn' upd H) as Ho. rewrite E in Ho.
    inversion Ho as [e d|t1 Ht1 Hst1 Hq1 Hh s1 Hi]; subst; [done|].
    cbn. rewrite lookup_insert_ne; [done|]. intros ->. congruence.
  - pose proof (commit_outcome_ok s tn' H) as Ho. rewrite E in Ho.
    inversion Ho as [|t1 s1 s2 ev1 Ht1 Hst Htk Hel H1 H2 Ht2 Hs]; subst; [done|].
    assert (Hne : tn <> tn') by congruence.
    rewrite <- Htk in Ht. destruct (v_tk _ _ _ _ Hs tn t Ht) as (t' & Ht' & [Hk'|C]); [|contradiction].
    rewrite Ht'. f_equal. destruct Hk' as (_ & _ & _ & _ & _ & _ & Hk'). auto.
  - pose proof (rollback_outcome_ok s tn' H) as Ho. rewrite E in Ho.
    inversion Ho as [|t1 s1 ev1 Ht1 Hi1 Hs Hh]; subst; [done|].
    assert (Hne : tn <> tn') by congruence. cbn. rewrite lookup_delete_ne by congruence.
    destruct (v_tk _ _ _ _ Hs tn t Ht) as (t' & Ht' & [Hk'|C]); [|contradiction].
    rewrite Ht'. f_equal. destruct Hk' as (_ & _ & _ & _ & _ & _ & Hk'). auto.
  - pose proof (finish_outcome_ok s tn' H) as Ho. rewrite E in Ho.
    inversion Ho as [|t1 Ht1 Hst Hi]; subst; [done|]. cbn. rewrite lookup_delete_ne; [done|].
    intros ->. congruence.
  - unfold get_tickets in E. injection E as <- <-. done.
Qed.

Lemma prepared_commits s tn t :
  reachable s -> s_tk s !! tn = Some t -> t_state t = Prepared ->
  exists s' ev, step s (OCommit tn) = Done (s', ev) /\ succeeded ev = true /\
    in_state s' tn Committed /\
    forall k, e_val (el s' k) = default (e_val (el s k)) (t_update t !! k).
Proof.
  intros H%reachable_inv Ht Hp. cbn [step]. pose proof (commit_outcome_ok s tn H) as Ho.
  inversion Ho as [e Hn E|t1 s1 s' ev Ht1 Hst Htk Hel H1 H2 (t2 & Et2 & Hc2) Hs E].
  - exfalso. apply Hn. exists t. auto.
  - assert (t1 = t) as -> by congruence. eexists _, _. split; [reflexivity|].
    split; [apply succeeded_app|]. split; [exists t2; auto|].
    intros k. rewrite (m_val _ _ _ (v_moves _ _ _ _ Hs)), Hel. done.
Qed.

Lemma values_change_by_commit s o s' ev k :
  reachable s -> step s o = Done (s', ev) -> e_val (el s' k) <> e_val (el s k) ->
  exists tn t, o = OCommit tn /\ s_tk s !! tn = Some t /\ t_state t = Prepared /\
    holds s tn k Write /\ t_update t !! k = Some (e_val (el s' k)).
Proof.
  intros H%reachable_inv E Hne.
  destruct o as [rid tn' b k' m first|tn' b upd|tn'|tn'|tn'|b]; cbn [step] in E.
  - exfalso. apply Hne. pose proof (try_lock_outcome s rid tn' b k' m first H) as Ho. rewrite E in Ho.
    inversion Ho as [|Hn|t1 e d Ht1 Hc1|f s0 t1 s1 ev1 Ht0 Hst Hs0 Hh Hk H0 H1 Hs]; subst; try done.
    rewrite (m_val _ _ _ (v_moves _ _ _ _ Hs)). unfold enqueue. rewrite el_set_tk, el_set_el.
    destruct Hs0 as [[_ ->]|(_ & _ & _ & ->)]; destruct (decide (k = k')) as [->|]; reflexivity.
  - exfalso. apply Hne. pose proof (prepare_outcome_ok s tn' upd H) as Ho. rewrite E in Ho.
    inversion Ho; subst; reflexivity.
  - pose proof (commit_outcome_ok s tn' H) as Ho. rewrite E in Ho.
    inversion Ho as [|t1 s1 s2 ev1 Ht1 Hst Htk Hel H1 H2 Ht2 Hs]; subst; [done|].
    assert (Ev : e_val (el s' k) = default (e_val (el s k)) (t_update t1 !! k)).
    { rewrite (m_val _ _ _ (v_moves _ _ _ _ Hs)), Hel. done. }
    rewrite Ev in Hne |- *. destruct (t_update t1 !! k) as [v|] eqn:Eu; [|done]. cbn in *.
    exists tn', t1. split; [done|]. split; [done|]. split; [done|]. split; [|exact Eu].
    exists t1. split; [done|]. apply (i_upd _ _ _ _ H tn' t1 k v); [discriminate|done..].
  - exfalso. apply Hne. pose proof (rollback_outcome_ok s tn' H) as Ho. rewrite E in Ho.
    inversion Ho as [|t1 s1 ev1 Ht1 Hi1 Hs Hh]; subst; [done|].
    change (el (Shard (s_st s1) (delete tn' (s_tk s1))) k) with (el s1 k).
    now rewrite (m_val _ _ _ (v_moves _ _ _ _ Hs)).
  - exfalso. apply Hne. pose proof (finish_outcome_ok s tn' H) as Ho. rewrite E in Ho.
    inversion Ho; subst; reflexivity.
  - exfalso. apply Hne. unfold get_tickets in E. injection E as <- <-. done.
Qed.

(** ** C36 *)

Lemma run_split os : forall s s' tr1 o ev tr2,
  run s os = Done (s', tr1 ++ (o, ev) :: tr2) ->
  exists os1 os2 s1 s2, os = os1 ++ o :: os2 /\ run s os1 = Done (s1, tr1) /\
    step s1 o = Done (s2, ev) /\ run s2 os2 = Done (s', tr2).
Proof.
  induction os as [|o0 r IH]; intros s s' tr1 o ev tr2; cbn [run].
  - intros [= _ E]. now destruct tr1.
  - destruct (step s o0) as [[s1 ev0]| | |] eqn:E; try discriminate. cbn [bind].
    destruct (run s1 r) as [[s2 tr']| | |] eqn:E2; try discriminate. cbn [bind].
    intros [= <- E3]. destruct tr1 as [|p tr1].
    + cbn in E3. injection E3 as -> -> ->. exists [], r, s, s1. auto.
    + cbn in E3. injection E3 as <- ->. destruct (IH s1 s2 tr1 o ev tr2 E2) as (os1 & os2 & sa & sb & -> & A & B & C).
      exists (o0 :: os1), os2, sa, sb. split; [done|]. split; [|auto]. cbn [run].
      rewrite E. cbn [bind]. rewrite A. done.
Qed.

Lemma issued_app a b : issued (a ++ b) = issued a ++ issued b.
Proof. unfold issued. now rewrite fmap_app, concat_app. Qed.

Lemma exec_prefix state ts os s tr1 o ev tr2 :
  NoDup (issued os) -> executes state ts os s (tr1 ++ (o, ev) :: tr2) ->
  exists s1 s2, step s1 o = Done (s2, ev) /\ reachable s1 /\ inv s1 /\ inv s2 /\ op_fresh s1 o /\
    vinv None s1 (view_of (view0 state ts) tr1) /\
    vinv None s2 (view_of (view0 state ts) (tr1 ++ [(o, ev)])).
Proof.
  intros Hnd (s0 & Hst & Hrun).
  destruct (run_split os s0 s tr1 o ev tr2 Hrun) as (os1 & os2 & s1 & s2 & -> & A & B & C).
  exists s1, s2. split; [exact B|].
  assert (H0 : inv s0) by (eapply started_inv; exact Hst).
  assert (H1 : inv s1) by (eapply run_inv; eassumption).
  destruct (started_queues _ _ _ Hst) as [Hi Hp].
  rewrite issued_app in Hnd. apply NoDup_app in Hnd as (Hnd1 & Hdis & Hnd2).
  change (issued (o :: os2)) with (op_rids o ++ issued os2) in Hnd2, Hdis.
  destruct (run_answers os1 s0 s1 tr1 H0 Hi) as (_ & _ & Hans & _); [intros rid _; apply Hp|exact Hnd1|exact A|].
  assert (Hf : op_fresh s1 o).
  { intros rid Hr Hpd. assert (pend s0 rid \/ rid ∈ issued os1) as [Hq|Hq] by (apply Hans; now right).
    - now apply (Hp rid).
    - apply (Hdis rid Hq). apply elem_of_app. now left. }
  split. { exists state, ts, os1, tr1, s0. auto. }
  split; [exact H1|]. split; [eapply step_not_fatal; eassumption|]. split; [exact Hf|].
  assert (Hv1 : vinv None s1 (view_of (view0 state ts) tr1)).
  { eapply run_view; [exact H0|exact Hi| |exact Hnd1|now apply started_view|exact A]. intros rid _; apply Hp. }
  split; [exact Hv1|]. unfold view_of. rewrite fold_left_app. cbn [fold_left].
  now apply (step_view s1 o s2 ev).
Qed.

Lemma serializable state ts os s tr1 tn ev tr2 k b :
  NoDup (issued os) -> executes state ts os s (tr1 ++ (OCommit tn, ev) :: tr2) ->
  succeeded ev = true ->
  v_got (view_of (view0 state ts) tr1) !! (tn, k) = Some b ->
  b = lookup_store (v_store (view_of (view0 state ts) tr1)) k.
Proof.
  intros Hnd He Hsuc Hg.
  destruct (exec_prefix _ _ _ _ _ _ _ _ Hnd He) as (s1 & s2 & Hs & _ & H1 & _ & _ & Hv & _).
  rewrite (w_store _ _ _ Hv). destruct (w_got _ _ _ Hv tn k b Hg) as (t & Ht & [Hw|[_ E]]); [|exact E].
  exfalso. cbn [step] in Hs. pose proof (commit_outcome_ok s1 tn H1) as Ho. rewrite Hs in Ho.
  inversion Ho as [e Hn E|t1 sa s' ev1 Ht1 Hst]; subst.
  - discriminate.
  - congruence.
Qed.

Lemma store_is_state state ts os s tr k :
  NoDup (issued os) -> executes state ts os s tr ->
  e_val (el s k) = lookup_store (v_store (view_of (view0 state ts) tr)) k.
Proof.
  intros Hnd (s0 & Hst & Hrun). destruct (started_queues _ _ _ Hst) as [Hi Hp].
  symmetry. apply (w_store None). eapply run_view; [eapply started_inv; exact Hst|exact Hi| |exact Hnd| |exact Hrun].
  - intros rid _; apply Hp.
  - now apply started_view.
Qed.

(** A grant tells the value of the key and is for a request that asked for it. *)
Lemma step_grants s o s' ev rid b :
  inv s -> step s o = Done (s', ev) -> ELock rid (Granted b) ∈ ev ->
  exists k tn m, b = e_val (el s' k) /\ (exists m', holds s' tn k m') /\
    (waits s tn k m rid \/ exists br f, o = OTryLock rid tn br k m f).
Proof.
  intros H E Hin.
  assert (Hser : forall P s1 ev1, served P s1 s' ev1 -> ELock rid (Granted b) ∈ ev1 ->
     exists k x, x ∈ e_queue (el s1 k) /\ q_rid x = rid /\ b = e_val (el s' k) /\
       exists m', holds s' (q_tn x) k m').
  { intros P s1 ev1 Hs Hi. destruct (v_grant _ _ _ _ Hs rid b Hi) as (k & x & Hx & Er & Ev & [m' Hh]).
    exists k, x. split; [done|]. split; [done|].
    split; [now rewrite (m_val _ _ _ (v_moves _ _ _ _ Hs))|]. exists m'. now apply held_holds. }
  destruct o as [rid' tn' b' k' m first|tn' b' upd|tn'|tn'|tn'|b']; cbn [step] in E.
  - pose proof (try_lock_outcome s rid' tn' b' k' m first H) as Ho. rewrite E in Ho.
    inversion Ho as [|Hn|t1 e d Ht1 Hc1|f s0 t1 s1 ev1 Ht0 Hst Hs0 Hh Hk H0 H1 Hs]; subst.
    + apply elem_of_list_singleton in Hin. discriminate.
    + apply elem_of_list_singleton in Hin. discriminate.
    + destruct (Hser _ _ _ Hs Hin) as (k & x & Hx & Er & Ev & Hh').
      apply (enqueue_queue s0 rid' tn' b' k' m t1 H0 Ht0 Hk) in Hx.
      exists k, (q_tn x), (q_mode x). split; [done|]. split; [done|].
      destruct Hx as [[-> ->]|Hx].
      * right. cbn in *. subst. eauto.
      * left. unfold waits. destruct x as [tx mx rx]. cbn in *. subst.
        destruct Hs0 as [[_ ->]|(_ & _ & _ & ->)]; exact Hx.
  - pose proof (prepare_outcome_ok s tn' upd H) as Ho. rewrite E in Ho.
    inversion Ho; subst; apply elem_of_list_singleton in Hin; discriminate.
  - pose proof (commit_outcome_ok s tn' H) as Ho. rewrite E in Ho.
    inversion Ho as [|t1 s1 s2 ev1 Ht1 Hst Htk Hel H1 H2 Ht2 Hs]; subst.
    + apply elem_of_list_singleton in Hin. discriminate.
    + apply elem_of_app in Hin as [Hin|Hin]; [|apply elem_of_list_singleton in Hin; discriminate].
      destruct (Hser _ _ _ Hs Hin) as (k & x & Hx & Er & Ev & Hh').
      exists k, (q_tn x), (q_mode x). split; [done|]. split; [done|]. left.
      unfold waits. destruct x as [tx mx rx]. cbn in *. subst. rewrite Hel in Hx. exact Hx.
  - pose proof (rollback_outcome_ok s tn' H) as Ho. rewrite E in Ho.
    inversion Ho as [|t1 s1 ev1 Ht1 Hi1 Hs Hh]; subst.
    + apply elem_of_list_singleton in Hin. discriminate.
    + apply elem_of_app in Hin as [Hin|Hin]; [|apply elem_of_list_singleton in Hin; discriminate].
      destruct (v_grant _ _ _ _ Hs rid b Hin) as (k & x & Hx & Er & Ev & [m' Hh']).
      exists k, (q_tn x), (q_mode x). split; [|split].
      * change (el (Shard (s_st s1) (delete tn' (s_tk s1))) k) with (el s1 k).
        now rewrite (m_val _ _ _ (v_moves _ _ _ _ Hs)).
      * apply held_holds in Hh' as (t & Ht & Hm). exists m', t. split; [|done]. cbn.
        rewrite lookup_delete_ne; [done|]. intros ->.
        specialize (Hh k). rewrite (held_lookup _ _ _ _ Ht) in Hh. congruence.
      * left. unfold waits. destruct x as [tx mx rx]. cbn in *. subst. exact Hx.
  - pose proof (finish_outcome_ok s tn' H) as Ho. rewrite E in Ho.
    inversion Ho; subst; apply elem_of_list_singleton in Hin; discriminate.
  - unfold get_tickets in E. injection E as <- <-. apply elem_of_list_singleton in Hin. discriminate.
Qed.

Lemma see_req v p : v_req (see v p) = v_req (see_op v p.1 p.2).
Proof. unfold see. now destruct (see_grants p.2 (see_op v p.1 p.2)) as (A & _). Qed.

Lemma see_op_req v o ev rid q :
  v_req v !! rid = Some q -> (forall r, r ∈ op_rids o -> r <> rid) -> v_req (see_op v o ev) !! rid = Some q.
Proof.
  intros H Hf. destruct o; cbn; try exact H; try (destruct (succeeded ev); exact H).
  rewrite lookup_insert_ne; [exact H|]. apply Hf. left.
Qed.

Lemma grant_is_current state ts os s tr1 o ev tr2 rid b :
  NoDup (issued os) -> executes state ts os s (tr1 ++ (o, ev) :: tr2) ->
  ELock rid (Granted b) ∈ ev ->
  exists tn k, v_req (view_of (view0 state ts) (tr1 ++ [(o, ev)])) !! rid = Some (tn, k) /\
    b = lookup_store (v_store (view_of (view0 state ts) (tr1 ++ [(o, ev)]))) k.
Proof.
  intros Hnd He Hin.
  destruct (exec_prefix _ _ _ _ _ _ _ _ Hnd He) as (s1 & s2 & Hs & _ & H1 & _ & Hf & Hv & Hv2).
  destruct (step_grants s1 o s2 ev rid b H1 Hs Hin) as (k & tn & m & Ev & _ & Hw).
  exists tn, k. split; [|now rewrite (w_store _ _ _ Hv2)].
  unfold view_of. rewrite fold_left_app. cbn [fold_left]. rewrite see_req. cbn [fst snd].
  destruct Hw as [Hw|(br & f & ->)].
  - apply see_op_req.
    + apply (w_req _ _ _ Hv k (QEnt tn m rid) Hw).
    + intros r Hr ->. apply (Hf rid Hr). exists k, (QEnt tn m rid). auto.
  - cbn. apply lookup_insert.
Qed.

(** ** C37 *)


Lemma waiting_pend s rid : waiting s rid <-> pend s rid.
Proof.
  split.
  - intros (tn & k & m & Hw). exists k, (QEnt tn m rid). auto.
  - intros (k & [tn m r] & Hx & <-). exists tn, k, m. exact Hx.
Qed.

Lemma answered_once state ts os s tr :
  NoDup (issued os) -> executes state ts os s tr ->
  NoDup (answered tr) /\
  (forall rid, rid ∈ issued os <-> rid ∈ answered tr \/ waiting s rid) /\
  (forall rid, rid ∈ answered tr -> ~ waiting s rid).
Proof.
  intros Hnd (s0 & Hst & Hrun). destruct (started_queues _ _ _ Hst) as [Hi Hp].
  destruct (run_answers os s0 s tr (started_inv _ _ _ Hst) Hi) as (_ & A & B & C);
    [intros rid _; apply Hp|exact Hnd|exact Hrun|].
  split; [exact A|]. split.
  - intros rid. rewrite waiting_pend, B. specialize (Hp rid). tauto.
  - intros rid. rewrite waiting_pend. apply C.
Qed.

Lemma step_waits s o s' ev tn k m rid :
  inv s -> step s o = Done (s', ev) -> waits s' tn k m rid ->
  waits s tn k m rid \/ exists br f, o = OTryLock rid tn br k m f.
Proof.
  intros H E Hw.
  destruct o as [rid' tn' b' k' m' first|tn' b' upd|tn'|tn'|tn'|b']; cbn [step] in E.
  - pose proof (try_lock_outcome s rid' tn' b' k' m' first H) as Ho. rewrite E in Ho.
    inversion Ho as [|Hn|t1 e d Ht1 Hc1|f s0 t1 s1 ev1 Ht0 Hst Hs0 Hh Hk H0 H1 Hs]; subst; try (now left).
    apply (m_sub _ _ _ (v_moves _ _ _ _ Hs)) in Hw.
    apply (enqueue_queue s0 rid' tn' b' k' m' t1 H0 Ht0 Hk) in Hw as [[-> [= -> -> ->]]|Hw]; [right; eauto|].
    left. destruct Hs0 as [[_ ->]|(_ & _ & _ & ->)]; exact Hw.
  - pose proof (prepare_outcome_ok s tn' upd H) as Ho. rewrite E in Ho. inversion Ho; subst; now left.
  - pose proof (commit_outcome_ok s tn' H) as Ho. rewrite E in Ho.
    inversion Ho as [|t1 s1 s2 ev1 Ht1 Hst Htk Hel H1 H2 Ht2 Hs]; subst; [now left|].
    apply (m_sub _ _ _ (v_moves _ _ _ _ Hs)) in Hw. rewrite Hel in Hw. now left.
  - pose proof (rollback_outcome_ok s tn' H) as Ho. rewrite E in Ho.
    inversion Ho as [|t1 s1 ev1 Ht1 Hi1 Hs Hh]; subst; [now left|].
    apply (m_sub _ _ _ (v_moves _ _ _ _ Hs)) in Hw. now left.
  - pose proof (finish_outcome_ok s tn' H) as Ho. rewrite E in Ho. inversion Ho; subst; now left.
  - unfold get_tickets in E. injection E as <- <-. now left.
Qed.

Lemma run_waits os : forall s s' tr tn k m rid,
  inv s -> run s os = Done (s', tr) -> waits s' tn k m rid ->
  waits s tn k m rid \/ exists br f, OTryLock rid tn br k m f ∈ os.
Proof.
  induction os as [|o r IH]; intros s s' tr tn k m rid H; cbn [run].
  - intros [= <- <-]. now left.
  - destruct (step s o) as [[s1 ev0]| | |] eqn:E; try discriminate. cbn [bind].
    destruct (run s1 r) as [[s2 tr']| | |] eqn:E2; try discriminate. cbn [bind].
    intros [= <- <-] Hw. assert (H1 : inv s1) by (eapply step_not_fatal; eassumption).
    destruct (IH s1 s2 tr' tn k m rid H1 E2 Hw) as [Hw1|(br & f & Hin)].
    + destruct (step_waits s o s1 ev0 tn k m rid H E Hw1) as [|(br & f & ->)]; [now left|].
      right. exists br, f. left.
    + right. exists br, f. now right.
Qed.

Lemma waits_as_asked state ts os s tr tn k m rid :
  executes state ts os s tr -> waits s tn k m rid ->
  exists br f, OTryLock rid tn br k m f ∈ os.
Proof.
  intros (s0 & Hst & Hrun) Hw.
  destruct (run_waits os s0 s tr tn k m rid (started_inv _ _ _ Hst) Hrun Hw) as [Hw0|]; [|done].
  exfalso. destruct (started_queues _ _ _ Hst) as [_ Hp]. apply (Hp rid). exists k, (QEnt tn m rid). auto.
Qed.

Lemma grant_locks s o s' ev rid b :
  reachable s -> step s o = Done (s', ev) -> ELock rid (Granted b) ∈ ev ->
  exists k tn m m', holds s' tn k m' /\
    (waits s tn k m rid \/ exists br f, o = OTryLock rid tn br k m f).
Proof.
  intros H%reachable_inv E Hin. destruct (step_grants s o s' ev rid b H E Hin) as (k & tn & m & _ & [m' Hh] & Hw).
  exists k, tn, m, m'. auto.
Qed.

(** ** C54 *)

Lemma never_undefined s o :
  reachable s ->
  (exists s' ev, step s o = Done (s', ev)) \/
  (step s o = Fatal /\ exists rid tn br k m t, o = OTryLock rid tn br k m true /\ s_tk s !! tn = Some t).
Proof.
  intros H%reachable_inv. destruct (step_inv s o H) as [(s' & ev & E & _)|[E Hf]]; [left; eauto|right; auto].
Qed.

Lemma locked_value_stable s o s' ev a k m :
  reachable s -> holds s a k m -> step s o = Done (s', ev) -> o <> OCommit a ->
  e_val (el s' k) = e_val (el s k).
Proof.
  intros Hr Hh E Hne. destruct (decide (e_val (el s' k) = e_val (el s k))) as [|Hd]; [done|].
  destruct (values_change_by_commit s o s' ev k Hr E Hd) as (tn & t & -> & _ & _ & Hw & _).
  exfalso. apply Hne. f_equal. now apply (exclusion s tn a k m).
Qed.
