(** Proofs about the replicated shard. *)
From stdpp Require Import base option list gmap fin_maps fin_sets.
From Coq Require Import NArith Lia.
From Verif Require Import Base ParsecShardModel ParsecShardSpec ParsecShardProofs ParsecShardSteps
  ParsecShardRuns ParsecShardFinal FailoverModel FailoverSpec.
Open Scope N_scope.

(** ** The locking shard *)

Lemma run_snoc os o : forall s s1 tr s2 ev,
  run s os = Done (s1, tr) -> step s1 o = Done (s2, ev) ->
  run s (os ++ [o]) = Done (s2, tr ++ [(o, ev)]).
Proof.
  induction os as [|o' r IH]; intros s s1 tr s2 ev; cbn [run app].
  - intros [= -> <-] E. rewrite E. reflexivity.
  - destruct (step s o') as [[s3 ev3]| | |] eqn:E3; try discriminate. cbn [bind].
    destruct (run s3 r) as [[s4 tr4]| | |] eqn:E4; try discriminate. cbn [bind].
    intros [= <- <-] E. rewrite (IH _ _ _ _ _ E4 E). reflexivity.
Qed.

Lemma reachable_step s o s' ev : reachable s -> step s o = Done (s', ev) -> reachable s'.
Proof.
  intros (state & ts & os & tr & s0 & H0 & Hr) E.
  exists state, ts, (os ++ [o]), (tr ++ [(o, ev)]), s0. split; [exact H0|].
  eapply run_snoc; eassumption.
Qed.

Lemma committed_untouched s tn t o s' ev :
  reachable s -> s_tk s !! tn = Some t -> t_state t = Committed ->
  o <> ORollback tn -> o <> OFinish tn -> step s o = Done (s', ev) ->
  s_tk s' !! tn = Some t.
Proof.
  intros Hr%reachable_inv Ht Hp Hc Hb E. pose proof Hr as H.
  assert (Hq : t_queued t = ∅) by (apply (i_idle _ _ _ _ H _ _ Ht); congruence).
  destruct o as [rid tn' b k m first|tn' b upd|tn'|tn'|tn'|b]; cbn [step] in E.
  - pose proof (try_lock_outcome s rid tn' b k m first H) as Ho. rewrite E in Ho.
    inversion Ho as [|Hn|t1 e d Ht1 Hc1|f s0 t1 s1 ev1 Ht0 Hst Hs0 Hh Hk H0 H1 Hs]; subst; try done.
    assert (Hne : tn <> tn').
    { intros ->. destruct Hs0 as [[_ ->]|(_ & Hn & _)]; congruence. }
    assert (Ht2 : s_tk (enqueue s0 rid tn' b k m t1) !! tn = Some t).
    { unfold enqueue. cbn. rewrite lookup_insert_ne by congruence.
      destruct Hs0 as [[_ ->]|(_ & _ & _ & ->)]; [done|]. cbn. now rewrite lookup_insert_ne by congruence. }
    destruct (v_tk _ _ _ _ Hs tn t Ht2) as (t' & Ht' & [Hk'|(_ & _ & _ & C)]); [|contradiction].
    rewrite Ht'. f_equal. destruct Hk' as (_ & _ & _ & _ & _ & _ & Hk'). auto.
  - pose proof (prepare_outcome_ok s tn' upd H) as Ho. rewrite E in Ho.
    inversion Ho as [e d|t1 Ht1 Hst1 Hq1 Hh s1 Hi]; subst; [done|].
    cbn. rewrite lookup_insert_ne; [done|]. intros ->. congruence.
  - pose proof (commit_outcome_ok s tn' H) as Ho. rewrite E in Ho.
    inversion Ho as [|t1 s1 s2 ev1 Ht1 Hst Htk Hel H1 H2 Ht2 Hs]; subst; [done|].
    assert (Hne : tn <> tn') by congruence.
    rewrite <- Htk in Ht. destruct (v_tk _ _ _ _ Hs tn t Ht) as (t' & Ht' & [Hk'|C]); [|contradiction].
    rewrite Ht'. f_equal. destruct Hk' as (_ & _ & _ & _ & _ & _ & Hk'). auto.
  - pose proof (rollback_outcome_ok s tn' H) as Ho. rewrite E in Ho.
    inversion Ho as [|t1 s1 ev1 Ht1 Hi1 Hs Hh]; subst; [done|].
    assert (Hne : tn <> tn') by congruence. cbn. rewrite lookup_delete_ne by congruence.
    destruct (v_tk _ _ _ _ Hs tn t Ht) as (t' & Ht' & [Hk'|C]); [|contradiction].
    rewrite Ht'. f_equal. destruct Hk' as (_ & _ & _ & _ & _ & _ & Hk'). auto.
  - pose proof (finish_outcome_ok s tn' H) as Ho. rewrite E in Ho.
    inversion Ho as [|t1 Ht1 Hst Hi]; subst; [done|]. cbn. rewrite lookup_delete_ne; [done|].
    intros ->. congruence.
  - unfold get_tickets in E. injection E as <- <-. done.
Qed.

Lemma values_stay s o s' ev k :
  reachable s -> (forall tn, o <> OCommit tn) -> step s o = Done (s', ev) ->
  e_val (el s' k) = e_val (el s k).
Proof.
  intros H Hn E. destruct (decide (e_val (el s' k) = e_val (el s k))) as [|Hne]; [done|].
  destruct (values_change_by_commit s o s' ev k H E Hne) as (tn & _ & -> & _). now destruct (Hn tn).
Qed.

(** ** Logs *)

Definition agree (r : rstate) (m : meaning) : Prop :=
  r_store r = m_store m /\
  forall tn, match r_tickets r !! tn with
    | None => m_prepared m !! tn = None /\ tn ∉ m_committed m
    | Some t => if r_committed t then m_prepared m !! tn = None /\ tn ∈ m_committed m
                else m_prepared m !! tn = Some (r_update t) /\ tn ∉ m_committed m
    end.

Lemma agree0 : agree rstate0 meaning0.
Proof. split; [done|]. intros tn. cbn. rewrite !lookup_empty. set_solver. Qed.

Lemma agree_apply r m e :
  agree r m -> (forall tn, e = LCommit tn -> tn ∉ m_committed m) ->
  agree (r_apply r e).1 (means m e).
Proof.
  intros [Hs Ht] Hc. destruct e as [tn b u|tn|tn]; cbn [r_apply fst means].
  - pose proof (Ht tn) as Htn. unfold r_prepare. destruct (r_tickets r !! tn) as [t|] eqn:Et.
    + destruct (r_committed t); destruct Htn as [A B].
      * rewrite decide_True by done. now split.
      * rewrite decide_False by done. rewrite A. now split.
    + destruct Htn as [A B]. rewrite decide_False by done. rewrite A. split; [exact Hs|].
      intros a. cbn [r_tickets m_prepared m_committed]. destruct (decide (a = tn)) as [->|Hn].
      * rewrite !lookup_insert. cbn. done.
      * rewrite !lookup_insert_ne by done. apply Ht.
  - specialize (Hc tn eq_refl). pose proof (Ht tn) as Htn. unfold r_commit.
    destruct (r_tickets r !! tn) as [t|] eqn:Et.
    + destruct (r_committed t) eqn:Ec; [destruct Htn; contradiction|]. destruct Htn as [A B].
      rewrite A. split; [cbn; now rewrite Hs|].
      intros a. cbn [fst r_tickets m_prepared m_committed]. destruct (decide (a = tn)) as [->|Hn].
      * rewrite lookup_insert, lookup_delete. cbn. set_solver.
      * rewrite lookup_insert_ne, lookup_delete_ne by done. specialize (Ht a).
        destruct (r_tickets r !! a) as [ta|]; [destruct (r_committed ta)|]; set_solver.
    + destruct Htn as [A B]. rewrite A. now split.
  - split; [exact Hs|]. intros a. cbn [r_finish r_tickets m_prepared m_committed].
    destruct (decide (a = tn)) as [->|Hn].
    + rewrite !lookup_delete. set_solver.
    + rewrite !lookup_delete_ne by done. specialize (Ht a).
      destruct (r_tickets r !! a) as [ta|]; [destruct (r_committed ta)|]; set_solver.
Qed.

Lemma meaning_snoc es e : meaning_of (es ++ [e]) = means (meaning_of es) e.
Proof. unfold meaning_of. now rewrite fold_left_app. Qed.

Lemma store_union (u st : gmap key bytes) k :
  lookup_store (u ∪ st) k = default (lookup_store st k) (u !! k).
Proof.
  unfold lookup_store. destruct (u !! k) as [v|] eqn:E; cbn [default].
  - now rewrite (lookup_union_Some_l _ _ _ _ E).
  - now rewrite (lookup_union_r _ _ _ E).
Qed.

(** ** The invariant *)

Record linv (d : leader) (m : meaning) : Prop := {
  l_reach : reachable (d_vol d);
  l_val : forall k, e_val (el (d_vol d) k) = lookup_store (m_store m) k;
  l_agree : agree (d_rep d) m;
  l_prep : forall tn u, m_prepared m !! tn = Some u ->
      exists t, s_tk (d_vol d) !! tn = Some t /\ t_state t = Prepared /\ t_update t = u;
  l_comm : forall tn, tn ∈ m_committed m -> in_state (d_vol d) tn Committed;
  l_qprep : forall q1 tn b u k q2, d_queue d = q1 ++ (LPrepare tn b u, k) :: q2 ->
      (forall e, e ∈ fst <$> q1 -> entry_tn e <> tn) /\
      m_prepared m !! tn = None /\ tn ∉ m_committed m /\
      exists t, s_tk (d_vol d) !! tn = Some t /\ t_state t = Prepared /\ t_update t = u;
  l_qcomm : forall q1 tn k q2, d_queue d = q1 ++ (LCommit tn, k) :: q2 ->
      LCommit tn ∉ fst <$> q1 /\ tn ∉ m_committed m
}.

Lemma linv0 : linv leader0 meaning0.
Proof.
  constructor; cbn.
  - exists ∅, ∅, [], [], shard0. split; [|done]. split.
    + intros a b ra rb k. rewrite lookup_empty. discriminate.
    + unfold recover. cbn [s_tk s_st shard0]. rewrite bool_decide_eq_true_2 by done. cbn [negb andb].
      rewrite fmap_empty, map_to_list_empty. cbn [fold_left]. now rewrite (left_id_L ∅ (∪)).
  - intros k. unfold el, lookup_store. cbn. now rewrite !lookup_empty.
  - apply agree0.
  - intros tn u. rewrite lookup_empty. discriminate.
  - intros tn. set_solver.
  - intros q1 tn b u k q2 E. destruct q1; discriminate E.
  - intros q1 tn k q2 E. destruct q1; discriminate E.
Qed.

(** A step of the locking shard that is not about a ticket keeps what is known of it. *)
Definition about (o : op) (tn : ticket_no) : Prop :=
  match o with OCommit a | ORollback a | OFinish a => a = tn | _ => False end.

Lemma prep_kept s o s' ev tn t :
  reachable s -> step s o = Done (s', ev) -> ~ about o tn ->
  s_tk s !! tn = Some t -> t_state t = Prepared -> s_tk s' !! tn = Some t.
Proof.
  intros H E Hn Ht Hp. eapply prepared_untouched; try eassumption; intros ->; now apply Hn.
Qed.

Lemma comm_kept s o s' ev tn :
  reachable s -> step s o = Done (s', ev) -> ~ about o tn ->
  in_state s tn Committed -> in_state s' tn Committed.
Proof.
  intros H E Hn (t & Ht & Hc). exists t. split; [|done].
  eapply committed_untouched; try eassumption; intros ->; now apply Hn.
Qed.

Lemma snoc_split {A} (q q1 q2 : list A) x y :
  q ++ [x] = q1 ++ y :: q2 ->
  (q2 = [] /\ q1 = q /\ y = x) \/ exists q2', q2 = q2' ++ [x] /\ q = q1 ++ y :: q2'.
Proof.
  destruct q2 as [|z q2 _] using rev_ind.
  - intros E. apply app_inj_tail in E as [-> ->]. left. auto.
  - rewrite app_comm_cons, app_assoc. intros E. apply app_inj_tail in E as [-> ->]. right. eauto.
Qed.

(** Serving a lock or ticket request. *)
Lemma linv_vol d m o s ev :
  linv d m -> (forall tn, ~ about o tn) -> step (d_vol d) o = Done (s, ev) ->
  linv (Leader s (d_rep d) (d_queue d)) m.
Proof.
  intros H Ha E. pose proof (l_reach _ _ H) as Hr. constructor; cbn [d_vol d_rep d_queue].
  - eapply reachable_step; eassumption.
  - intros k. rewrite (values_stay _ _ _ _ k Hr) with (2 := E); [apply (l_val _ _ H)|].
    intros tn ->. now apply (Ha tn).
  - apply (l_agree _ _ H).
  - intros tn u Hu. destruct (l_prep _ _ H tn u Hu) as (t & Ht & Hp & Hup). exists t.
    split; [|done]. eapply prep_kept; eauto.
  - intros tn Hc. eapply comm_kept; eauto. now apply (l_comm _ _ H).
  - intros q1 tn b u k q2 Eq. destruct (l_qprep _ _ H q1 tn b u k q2 Eq) as (A & B & C & t & Ht & Hp & Hu).
    split; [exact A|]. split; [exact B|]. split; [exact C|]. exists t. split; [|done].
    eapply prep_kept; eauto.
  - apply (l_qcomm _ _ H).
Qed.

(** Queueing a commit, a rollback or a finish. *)
Lemma linv_queue d m e k :
  linv d m -> (forall tn b u, e <> LPrepare tn b u) ->
  (forall tn, e = LCommit tn -> ~ on_its_way d e /\ tn ∉ m_committed m) ->
  linv (Leader (d_vol d) (d_rep d) (d_queue d ++ [(e, k)])) m.
Proof.
  intros H Hp Hc. constructor; cbn [d_vol d_rep d_queue];
    [apply H|apply H|apply H|apply H|apply H| |].
  - intros q1 tn b u k' q2 E. apply snoc_split in E as [(_ & _ & [= E _])|(q2' & _ & E)].
    + exfalso. now apply (Hp tn b u).
    + eapply l_qprep; eassumption.
  - intros q1 tn k' q2 E. apply snoc_split in E as [(_ & -> & [= E _])|(q2' & _ & E)].
    + subst e. now apply Hc.
    + eapply l_qcomm; eassumption.
Qed.

Lemma prepare_effect s tn b u s' ev :
  reachable s -> step s (OPrepare tn b u) = Done (s', ev) ->
  (s' = s /\ exists x, ev = [EReply (Some x)]) \/
  (ev = [EReply None] /\ exists t t', s_tk s !! tn = Some t /\ t_state t = Begun /\
     s_tk s' = <[tn := t']> (s_tk s) /\ t_state t' = Prepared /\ t_update t' = u).
Proof.
  intros H%reachable_inv E. cbn [step] in E. pose proof (prepare_outcome_ok s tn u H) as Ho.
  rewrite E in Ho. inversion Ho as [e d|t Ht Hst Hq Hh s1 Hi]; subst.
  - left. eauto.
  - right. split; [done|]. eexists t, _. split; [done|]. split; [done|]. split; [reflexivity|]. done.
Qed.

(** Preparing. *)
Lemma linv_prepare d m tn b u s :
  linv d m -> (forall e, on_its_way d e -> entry_tn e <> tn) ->
  step (d_vol d) (OPrepare tn b u) = Done (s, [EReply None]) ->
  linv (Leader s (d_rep d) (d_queue d ++ [(LPrepare tn b u, KPrepare)])) m.
Proof.
  intros H Hw E. pose proof (l_reach _ _ H) as Hr.
  destruct (prepare_effect _ _ _ _ _ _ Hr E) as [(_ & x & [=])|(_ & t & t' & Ht & Hst & Hs & Hp & Hu)].
  pose proof (linv_vol d m (OPrepare tn b u) _ _ H (fun _ x => x) E) as H'.
  assert (Hnp : m_prepared m !! tn = None).
  { destruct (m_prepared m !! tn) as [v|] eqn:Ev; [|done].
    destruct (l_prep _ _ H tn v Ev) as (t2 & Ht2 & Hp2 & _). congruence. }
  assert (Hnc : tn ∉ m_committed m).
  { intros C. destruct (l_comm _ _ H tn C) as (t2 & Ht2 & Hp2). congruence. }
  constructor; cbn [d_vol d_rep d_queue]; [apply H'|apply H'|apply H'|apply H'|apply H'| |].
  - intros q1 a b' u' k' q2 Eq. apply snoc_split in Eq as [(_ & -> & [= -> -> -> ->])|(q2' & _ & Eq)].
    + split; [exact Hw|]. split; [exact Hnp|]. split; [exact Hnc|].
      exists t'. rewrite Hs. split; [apply lookup_insert|done].
    + exact (l_qprep _ _ H' q1 a b' u' k' q2' Eq).
  - intros q1 a k' q2 Eq. apply snoc_split in Eq as [(_ & -> & [=])|(q2' & _ & Eq)].
    exact (l_qcomm _ _ H' q1 a k' q2' Eq).
Qed.

Lemma linv_serve d m o ok d' r :
  linv d m -> polite d (AServe o ok) -> serve d o ok = Done (d', r) -> linv d' m.
Proof.
  intros H Hp. destruct o as [rid tn b k md first|tn b u|tn|tn|tn|b]; unfold serve.
  - destruct (step (d_vol d) _) as [[s ev]| | |] eqn:E; try discriminate. cbn [bind].
    intros [= <- _]. eapply linv_vol; [exact H| |exact E]. intros a C. exact C.
  - destruct (step (d_vol d) _) as [[s ev]| | |] eqn:E; try discriminate. cbn [bind].
    destruct (prepare_effect _ _ _ _ _ _ (l_reach _ _ H) E) as [(-> & x & ->)|(-> & _)].
    + intros [= <- _]. eapply linv_vol; [exact H| |exact E]. intros a C. exact C.
    + destruct ok; intros [= <- _].
      * eapply linv_prepare; eassumption.
      * eapply linv_vol; [exact H| |exact E]. intros a C. exact C.
  - destruct ok; intros [= <- _]; [|exact H]. destruct Hp as [Hw Hn].
    apply linv_queue; [exact H|discriminate|]. intros a [= <-]. split; [exact Hw|].
    intros C. pose proof (proj2 (l_agree _ _ H) tn) as Ha.
    destruct (r_tickets (d_rep d) !! tn) as [t|]; [rewrite (Hn t eq_refl) in Ha|]; now destruct Ha.
  - destruct ok; intros [= <- _]; [|exact H]. apply linv_queue; [exact H|discriminate|discriminate].
  - destruct ok; intros [= <- _]; [|exact H]. apply linv_queue; [exact H|discriminate|discriminate].
  - destruct (step (d_vol d) _) as [[s ev]| | |] eqn:E; try discriminate. cbn [bind].
    intros [= <- _]. eapply linv_vol; [exact H| |exact E]. intros a C. exact C.
Qed.

(** Applying an entry. *)
Lemma linv_apply d m e k q :
  linv d m -> d_queue d = (e, k) :: q ->
  exists d' r, apply_entry d = Some (Done (d', r)) /\ linv d' (means m e) /\ d_queue d' = q /\
    d_rep d' = (r_apply (d_rep d) e).1 /\ (forall tn, e = LCommit tn -> tn ∉ m_committed m).
Proof.
  intros H Eq. pose proof (l_reach _ _ H) as Hr.
  assert (Hcomm : forall tn, e = LCommit tn -> tn ∉ m_committed m).
  { intros tn ->. apply (l_qcomm _ _ H [] tn k q). exact Eq. }
  assert (Hag : agree (r_apply (d_rep d) e).1 (means m e)) by (apply agree_apply; [apply H|exact Hcomm]).
  (* entries left in the queue *)
  assert (Hqp : forall q1 tn b u k' q2, q = q1 ++ (LPrepare tn b u, k') :: q2 ->
     entry_tn e <> tn /\ (forall e', e' ∈ fst <$> q1 -> entry_tn e' <> tn) /\
     m_prepared m !! tn = None /\ tn ∉ m_committed m /\
      exists t, s_tk (d_vol d) !! tn = Some t /\ t_state t = Prepared /\ t_update t = u).
  { intros q1 tn b u k' q2 E. destruct (l_qprep _ _ H ((e, k) :: q1) tn b u k' q2) as (A & B).
    - now rewrite Eq, E.
    - split; [apply A; left|]. split; [|exact B]. intros e' He'. apply A. right. exact He'. }
  assert (Hqc : forall q1 tn k' q2, q = q1 ++ (LCommit tn, k') :: q2 ->
     e <> LCommit tn /\ LCommit tn ∉ fst <$> q1 /\ tn ∉ m_committed m).
  { intros q1 tn k' q2 E. destruct (l_qcomm _ _ H ((e, k) :: q1) tn k' q2) as (A & B).
    - now rewrite Eq, E.
    - cbn in A. apply not_elem_of_cons in A as [A A']. split; [congruence|]. auto. }
  (* what other tickets are *)
  assert (Hmp : forall tn, tn <> entry_tn e -> m_prepared (means m e) !! tn = m_prepared m !! tn).
  { intros tn Hn. destruct e as [a b u|a|a]; cbn [means entry_tn] in *.
    - case_decide; [done|]. destruct (m_prepared m !! a); [done|]. cbn. now rewrite lookup_insert_ne by done.
    - destruct (m_prepared m !! a); [|done]. cbn. now rewrite lookup_delete_ne by done.
    - cbn. now rewrite lookup_delete_ne by done. }
  assert (Hmc : forall tn, tn <> entry_tn e -> tn ∈ m_committed (means m e) <-> tn ∈ m_committed m).
  { intros tn Hn. destruct e as [a b u|a|a]; cbn [means entry_tn] in *.
    - case_decide; [done|]. now destruct (m_prepared m !! a).
    - destruct (m_prepared m !! a); [|done]. cbn. set_solver.
    - cbn. set_solver. }
  (* the rest follows from the new locking shard keeping the values and the other tickets *)
  assert (Hfin : forall s', reachable s' ->
     (forall k, e_val (el s' k) = lookup_store (m_store (means m e)) k) ->
     (forall tn t, tn <> entry_tn e -> s_tk (d_vol d) !! tn = Some t -> t_state t = Prepared ->
        s_tk s' !! tn = Some t) ->
     (forall tn, tn <> entry_tn e -> in_state (d_vol d) tn Committed -> in_state s' tn Committed) ->
     (forall u, m_prepared (means m e) !! entry_tn e = Some u ->
        exists t, s_tk s' !! entry_tn e = Some t /\ t_state t = Prepared /\ t_update t = u) ->
     (entry_tn e ∈ m_committed (means m e) -> in_state s' (entry_tn e) Committed) ->
     linv (Leader s' (r_apply (d_rep d) e).1 q) (means m e)).
  { intros s' Hr' Hv Hp Hc Hp1 Hc1. constructor; cbn [d_vol d_rep d_queue]; [exact Hr'|exact Hv|exact Hag|..].
    - intros tn u Hu. destruct (decide (tn = entry_tn e)) as [->|Hn]; [now apply Hp1|].
      rewrite Hmp in Hu by done. destruct (l_prep _ _ H tn u Hu) as (t & Ht & Hs & Hut). eauto.
    - intros tn Hct. destruct (decide (tn = entry_tn e)) as [->|Hn]; [now apply Hc1|].
      apply Hc; [done|]. apply (l_comm _ _ H). now apply Hmc.
    - intros q1 tn b u k' q2 E. destruct (Hqp q1 tn b u k' q2 E) as (A & B & C & D & t & Ht & Hs & Hu).
      split; [exact B|]. rewrite Hmp, Hmc by congruence. split; [exact C|]. split; [exact D|].
      exists t. split; [|done]. apply Hp; [congruence|done..].
    - intros q1 tn k' q2 E. destruct (Hqc q1 tn k' q2 E) as (A & B & C). split; [exact B|].
      destruct (decide (tn = entry_tn e)) as [->|Hn]; [|now rewrite Hmc].
      destruct e as [a b u|a|a]; cbn [means entry_tn] in *.
      + case_decide; [done|]. now destruct (m_prepared m !! a).
      + now destruct A.
      + cbn. set_solver. }
  unfold apply_entry. rewrite Eq. pose proof (proj2 (l_agree _ _ H) (entry_tn e)) as Ht.
  destruct e as [tn b u|tn|tn]; cbn [r_apply entry_tn] in *.
  - (* prepare *)
    cbn [fst] in *. eexists _, _. split; [reflexivity|].
    destruct (l_qprep _ _ H [] tn b u k q Eq) as (_ & Hn & Hnc & t & Hvt & Hvp & Hvu).
    split; [|split; [done|split; [done|discriminate]]].
    apply Hfin; try done.
    + intros k'. rewrite (l_val _ _ H). cbn [means]. rewrite decide_False by done. now rewrite Hn.
    + intros v Hv. cbn [means] in Hv. rewrite decide_False, Hn in Hv by done. cbn in Hv.
      rewrite lookup_insert in Hv. injection Hv as <-. eauto.
    + cbn [means]. rewrite decide_False, Hn by done. cbn. now intros ?.
  - (* commit *)
    specialize (Hcomm tn eq_refl). unfold r_commit in *.
    destruct (r_tickets (d_rep d) !! tn) as [rt|] eqn:Ert.
    + destruct (r_committed rt); [now destruct Ht|]. destruct Ht as [Hu _].
      destruct (l_prep _ _ H tn _ Hu) as (t & Hvt & Hvp & Hvu).
      destruct (prepared_commits (d_vol d) tn t Hr Hvt Hvp) as (s' & ev & E & _ & Hst & Hval).
      rewrite E. cbn [bind fst snd] in *. eexists _, _. split; [reflexivity|].
      split; [|split; [done|split; [done|intros a [= <-]; done]]].
      apply Hfin.
      * eapply reachable_step; eassumption.
      * intros k'. rewrite Hval, (l_val _ _ H), Hvu. cbn [means]. rewrite Hu. cbn [m_store].
        symmetry. apply store_union.
      * intros a ta Hn Ha Hp. eapply prep_kept; eauto.
      * intros a Hn Ha. eapply comm_kept; eauto.
      * intros v. cbn [means]. rewrite Hu. cbn. rewrite lookup_delete. discriminate.
      * intros _. exact Hst.
    + destruct Ht as [Hu _]. cbn [fst snd] in *. eexists _, _. split; [reflexivity|].
      split; [|split; [done|split; [done|intros a [= <-]; done]]].
      apply Hfin; try done.
      * intros k'. rewrite (l_val _ _ H). cbn [means]. now rewrite Hu.
      * intros v. cbn [means]. rewrite Hu. congruence.
      * cbn [means]. rewrite Hu. intros C. now destruct (Hcomm C).
  - (* finish *)
    cbn [fst] in *.
    assert (Hcall : forall o, o = ORollback tn \/ o = OFinish tn -> exists d' r,
      bind (step (d_vol d) o) (fun '(s, ev) =>
         Done (Leader s (r_finish (d_rep d) tn) q, [RShard ev])) = Done (d', r) /\
      linv d' (means m (LFinish tn)) /\ d_queue d' = q /\ d_rep d' = r_finish (d_rep d) tn).
    { intros o Ho. destruct (step_inv (d_vol d) o (reachable_inv _ Hr)) as [(s' & ev & E & _)|(_ & C)].
      2: { destruct C as (? & ? & ? & ? & ? & ? & -> & _). destruct Ho as [?|?]; discriminate. }
      rewrite E. cbn [bind]. eexists _, _. split; [reflexivity|]. split; [|done].
      assert (Hab : forall a, a <> tn -> ~ about o a) by (intros a Hn; destruct Ho as [-> | ->]; cbn; congruence).
      apply Hfin.
      - eapply reachable_step; eassumption.
      - intros k'. rewrite (values_stay _ _ _ _ k' Hr) with (2 := E); [apply (l_val _ _ H)|].
        intros a ->. destruct Ho as [?|?]; discriminate.
      - intros a ta Hn Ha Hp. eapply prep_kept; eauto.
      - intros a Hn Ha. eapply comm_kept; eauto.
      - intros v. cbn. rewrite lookup_delete. discriminate.
      - cbn. set_solver. }
    destruct k; match goal with |- context[step (d_vol d) ?o] =>
      destruct (Hcall o) as (d' & r & -> & A & B & C); [now (left + right)|] end;
      exists d', r; (split; [done|]); (split; [exact A|]); (split; [exact B|]);
      (split; [exact C|]); discriminate.
Qed.

Lemma linv_apply_n n : forall d m, linv d m ->
  exists d', linv d' (fold_left means (take n (fst <$> d_queue d)) m) /\
    d_rep d' = r_apply_all (d_rep d) (take n (fst <$> d_queue d)).
Proof.
  induction n as [|n IH]; intros d m H.
  - exists d. now rewrite take_0.
  - destruct (d_queue d) as [|[e k] q] eqn:Eq; cbn [fmap list_fmap take].
    + exists d. done.
    + destruct (linv_apply d m e k q H Eq) as (d1 & r & _ & H1 & Hq & Hrep & _).
      destruct (IH d1 _ H1) as (d2 & H2 & Hr2). rewrite Hq in H2, Hr2.
      exists d2. cbn [fold_left fst]. split; [exact H2|]. now rewrite Hr2, Hrep.
Qed.

Lemma linv_disjoint d m : linv d m -> disjoint_tickets (r_tickets (d_rep d)).
Proof.
  intros H a b ra rb k Ha Hb Hn Hca Hcb Hka Hkb. apply Hn.
  pose proof (proj2 (l_agree _ _ H)) as Hag.
  pose proof (reachable_inv _ (l_reach _ _ H)) as Hi.
  assert (Hw : forall t r, r_tickets (d_rep d) !! t = Some r -> r_committed r = false ->
            is_Some (r_update r !! k) -> holds (d_vol d) t k Write).
  { intros t r Ht Hc [v Hv]. specialize (Hag t). rewrite Ht, Hc in Hag. destruct Hag as [Hag _].
    destruct (l_prep _ _ H t _ Hag) as (tt & Htt & Hs & Hu). exists tt. split; [done|].
    apply (i_upd _ _ _ _ Hi t tt k v); [discriminate|done|done|]. now rewrite Hu. }
  eapply (exclusion (d_vol d)); [apply H|eapply Hw; eassumption|eapply Hw; eassumption].
Qed.

Lemma recover_some state ts : exists s, recover shard0 state ts = Some s.
Proof.
  unfold recover. cbn [s_tk s_st shard0]. rewrite bool_decide_eq_true_2 by done. cbn. eauto.
Qed.

(** What recovery restores. *)
Lemma agree_restored r m s :
  agree r m -> started (r_store r) (r_tickets r) s -> restored s m.
Proof.
  intros [Hs Ht] H. destruct (started_spec _ _ _ H) as [Htk Hel].
  assert (Hholds : forall tn k md, holds s tn k md <->
            md = Write /\ exists u, m_prepared m !! tn = Some u /\ is_Some (u !! k)).
  { intros tn k md. unfold holds. rewrite Htk. specialize (Ht tn).
    destruct (r_tickets r !! tn) as [rt|] eqn:Er; cbn.
    - destruct (r_committed rt) eqn:Ec; destruct Ht as [A B].
      + split; [|intros (_ & u & Hu & _); congruence].
        intros (t & [= <-] & Hh). unfold rec_ticket in Hh. rewrite Ec in Hh. cbn in Hh.
        rewrite lookup_empty in Hh. discriminate.
      + split.
        * intros (t & [= <-] & Hh). unfold rec_ticket in Hh. rewrite Ec in Hh. cbn in Hh.
          rewrite lookup_fmap in Hh. destruct (r_update rt !! k) eqn:Ek; [|discriminate].
          cbn in Hh. injection Hh as <-. split; [done|]. exists (r_update rt). rewrite Ek. eauto.
        * intros (-> & u & Hu & Hk). exists (rec_ticket rt). split; [done|].
          unfold rec_ticket. rewrite Ec. cbn. rewrite lookup_fmap.
          assert (u = r_update rt) as -> by congruence. destruct Hk as [v ->]. done.
    - split; [intros (t & [=] & _)|]. intros (_ & u & Hu & _). destruct Ht. congruence. }
  split; [|split; [|split; [|split; [|split]]]].
  - intros k. rewrite (proj1 (Hel k)). now rewrite Hs.
  - intros tn u Hu. specialize (Ht tn). specialize (Htk tn).
    destruct (r_tickets r !! tn) as [rt|]; [|destruct Ht; congruence].
    destruct (r_committed rt) eqn:Ec; destruct Ht as [A B]; [congruence|].
    exists (rec_ticket rt). split; [exact Htk|]. unfold rec_ticket. rewrite Ec. cbn. split; [done|congruence].
  - intros tn k. rewrite Hholds. intuition.
  - intros tn k [C _]%Hholds. discriminate.
  - intros tn. specialize (Ht tn). specialize (Htk tn). unfold in_state.
    destruct (r_tickets r !! tn) as [rt|]; cbn in Htk.
    + destruct (r_committed rt) eqn:Ec; destruct Ht as [A B]; (split; [|]).
      * done.
      * intros _. exists (rec_ticket rt). split; [done|]. unfold rec_ticket. now rewrite Ec.
      * intros (t & Et & Hc). rewrite Htk in Et. injection Et as <-. unfold rec_ticket in Hc.
        rewrite Ec in Hc. discriminate.
      * done.
    + split; [intros (t & C & _); congruence|]. now destruct Ht.
  - intros tn. specialize (Ht tn). specialize (Htk tn). rewrite Htk.
    destruct (r_tickets r !! tn) as [rt|]; cbn.
    + destruct (r_committed rt); destruct Ht as [A B]; split; eauto.
    + destruct Ht as [A B]. rewrite A. split; [intros [? [=]]|intros [[? [=]]|?]; done].
Qed.

Lemma linv_take_over d m n :
  linv d m -> exists d', take_over d n = Some d' /\ d_queue d' = [] /\
    restored (d_vol d') (fold_left means (take n (fst <$> d_queue d)) m) /\
    started (r_store (d_rep d')) (r_tickets (d_rep d')) (d_vol d') /\
    linv d' (fold_left means (take n (fst <$> d_queue d)) m).
Proof.
  intros H. destruct (linv_apply_n n d m H) as (d1 & H1 & Hrep).
  unfold take_over. rewrite <- Hrep.
  destruct (recover_some (r_store (d_rep d1)) (r_tickets (d_rep d1))) as [s Es]. rewrite Es. cbn.
  assert (Hst : started (r_store (d_rep d1)) (r_tickets (d_rep d1)) s).
  { split; [|exact Es]. eapply linv_disjoint; exact H1. }
  pose proof (agree_restored _ _ _ (l_agree _ _ H1) Hst) as Hres.
  eexists. split; [reflexivity|]. cbn. split; [done|]. split; [exact Hres|]. split; [exact Hst|].
  destruct Hres as (Hv & Hp & _ & _ & Hc & _). constructor; cbn.
  - exists (r_store (d_rep d1)), (r_tickets (d_rep d1)), [], [], s. split; [exact Hst|done].
  - exact Hv.
  - apply (l_agree _ _ H1).
  - exact Hp.
  - intros tn. apply Hc.
  - intros q1 tn b u k q2 E. destruct q1; discriminate E.
  - intros q1 tn k q2 E. destruct q1; discriminate E.
Qed.

Lemma leads_linv d acts es rs : leads polite d acts es rs -> linv d (meaning_of es).
Proof.
  induction 1 as [|d acts es rs o ok d' r _ IH Hp E|d acts es rs e k q d' r _ IH Eq E
                  |d acts es rs n d' r _ IH E].
  - apply linv0.
  - injection E as E. eapply linv_serve; eassumption.
  - destruct (linv_apply d _ e k q IH Eq) as (d1 & r1 & E1 & H1 & _). cbn [act_step] in E.
    rewrite E1 in E. injection E as <- <-. now rewrite meaning_snoc.
  - destruct (linv_take_over d _ n IH) as (d1 & E1 & _ & _ & _ & H1). cbn [act_step] in E.
    rewrite E1 in E. cbn in E. injection E as <- <-. unfold meaning_of in *. now rewrite fold_left_app.
Qed.

Lemma leads_commits_once d acts es rs : leads polite d acts es rs -> commits_once es.
Proof.
  assert (Hsnoc : forall es m e, commits_once_from m es ->
     (forall tn, e = LCommit tn -> tn ∉ m_committed (fold_left means es m)) ->
     commits_once_from m (es ++ [e])).
  { intros l. induction l as [|e' l IH]; intros m e; cbn.
    - intros _ He. split; [|done]. destruct e; auto.
    - intros [A B] He. split; [exact A|]. now apply IH. }
  assert (Hn : forall n d m es, linv d (fold_left means es m) -> commits_once_from m es ->
     commits_once_from m (es ++ take n (fst <$> d_queue d))).
  { intros n. induction n as [|n IHn]; intros d' m es' Hl Hc; [now rewrite take_0, app_nil_r|].
    destruct (d_queue d') as [|[e k] q] eqn:Eq; cbn [fmap list_fmap take]; [now rewrite app_nil_r|].
    destruct (linv_apply d' _ e k q Hl Eq) as (d1 & r1 & _ & H1 & Hq & _ & Hco).
    assert (es' ++ e :: take n (fst <$> q) = (es' ++ [e]) ++ take n (fst <$> d_queue d1)) as E
      by (rewrite Hq; now rewrite <- app_assoc).
    change (commits_once_from m (es' ++ e :: take n (fst <$> q))). rewrite E. apply IHn.
    - now rewrite fold_left_app.
    - apply Hsnoc; assumption. }
  induction 1 as [|d acts es rs o ok d' r _ IH Hp E|d acts es rs e k q d' r Hl IH Eq E
                  |d acts es rs n d' r Hl IH E].
  - done.
  - exact IH.
  - apply Hsnoc; [exact IH|]. apply leads_linv in Hl.
    destruct (linv_apply d _ e k q Hl Eq) as (d1 & r1 & _ & _ & _ & _ & Hco). exact Hco.
  - apply Hn; [|exact IH]. exact (leads_linv _ _ _ _ Hl).
Qed.

(** ** The theorems *)

Lemma failover d acts es rs n :
  leads polite d acts es rs ->
  exists d', act_step d (ATakeOver n) = Some (Done (d', [])) /\ d_queue d' = [] /\
    restored (d_vol d') (meaning_of (surviving d es n)) /\ reachable (d_vol d').
Proof.
  intros H%leads_linv. destruct (linv_take_over d _ n H) as (d' & E & Hq & Hr & _ & Hi).
  exists d'. cbn [act_step]. rewrite E. cbn. split; [done|]. split; [exact Hq|].
  unfold surviving, meaning_of. rewrite fold_left_app. split; [exact Hr|apply Hi].
Qed.

Lemma served_values_durable d acts es rs k :
  leads polite d acts es rs -> e_val (el (d_vol d) k) = lookup_store (m_store (meaning_of es)) k.
Proof. intros H%leads_linv. apply (l_val _ _ H). Qed.

Lemma open_tickets d acts es rs :
  leads polite d acts es rs ->
  (forall tn u, m_prepared (meaning_of es) !! tn = Some u ->
     exists t, s_tk (d_vol d) !! tn = Some t /\ t_state t = Prepared /\ t_update t = u) /\
  (forall tn, tn ∈ m_committed (meaning_of es) -> in_state (d_vol d) tn Committed).
Proof. intros H%leads_linv. split; [apply (l_prep _ _ H)|apply (l_comm _ _ H)]. Qed.

Lemma prepared_stays es : forall m tn u,
  m_prepared m !! tn = Some u -> tn ∉ m_committed m ->
  LCommit tn ∉ es -> LFinish tn ∉ es -> m_prepared (fold_left means es m) !! tn = Some u.
Proof.
  induction es as [|e es IH]; intros m tn u Hm Hc H1 H2; [exact Hm|]. cbn [fold_left].
  apply not_elem_of_cons in H1 as [N1 H1]. apply not_elem_of_cons in H2 as [N2 H2].
  apply IH; try done.
  - destruct e as [a b v|a|a]; cbn [means].
    + case_decide; [done|]. destruct (m_prepared m !! a) eqn:Ea; [done|]. cbn.
      rewrite lookup_insert_ne; [done|]. congruence.
    + destruct (m_prepared m !! a) eqn:Ea; [|done]. cbn. rewrite lookup_delete_ne; [done|]. congruence.
    + cbn. rewrite lookup_delete_ne; [done|]. congruence.
  - destruct e as [a b v|a|a]; cbn [means].
    + case_decide; [done|]. now destruct (m_prepared m !! a).
    + destruct (m_prepared m !! a) eqn:Ea; [|done]. cbn. assert (tn <> a) by congruence. set_solver.
    + cbn. set_solver.
Qed.

(** The answer to a prepare: its entry is in the log and the ticket is prepared. *)
Lemma prepare_answer d acts es rs d' r :
  leads polite d acts es rs -> act_step d AApply = Some (Done (d', r)) -> RPrepared ∈ r ->
  exists tn b u k q, d_queue d = (LPrepare tn b u, k) :: q /\ d_queue d' = q /\
    m_prepared (meaning_of (es ++ [LPrepare tn b u])) !! tn = Some u /\
    tn ∉ m_committed (meaning_of (es ++ [LPrepare tn b u])).
Proof.
  intros H%leads_linv E Hr. cbn [act_step] in E.
  destruct (d_queue d) as [|[e k] q] eqn:Eq; [unfold apply_entry in E; rewrite Eq in E; discriminate|].
  assert (He : exists tn b u, e = LPrepare tn b u).
  { unfold apply_entry in E. rewrite Eq in E. destruct e as [tn b u|tn|tn]; [eauto|exfalso..].
    - destruct (r_apply (d_rep d) (LCommit tn)) as [r1 [x|]].
      + injection E as <- <-. apply elem_of_list_singleton in Hr. discriminate.
      + destruct (step (d_vol d) (OCommit tn)) as [[s1 ev]| | |]; try discriminate. cbn in E.
        injection E as <- <-. apply elem_of_list_singleton in Hr. discriminate.
    - cbn [r_apply] in E.
      assert (forall o, Some (bind (step (d_vol d) o) (fun '(s, ev) =>
          Done (Leader s (r_finish (d_rep d) tn) q, [RShard ev]))) = Some (Done (d', r)) -> False) as Hx.
      { intros o Ex. destruct (step (d_vol d) o) as [[s1 ev]| | |]; try discriminate. cbn in Ex.
        injection Ex as <- <-. apply elem_of_list_singleton in Hr. discriminate. }
      destruct k; eapply Hx; exact E. }
  destruct He as (tn & b & u & ->). exists tn, b, u, k, q. split; [done|].
  destruct (l_qprep _ _ H [] tn b u k q Eq) as (_ & Hn & Hnc & _).
  split.
  - unfold apply_entry in E. rewrite Eq in E. cbn in E. now injection E as <- <-.
  - rewrite meaning_snoc. cbn [means]. rewrite decide_False by done. rewrite Hn. cbn.
    split; [apply lookup_insert|done].
Qed.

(** The answer to a commit: the update of the prepared ticket is in the store. *)
Lemma commit_answer d acts es rs tn k q d' r ev :
  leads polite d acts es rs -> d_queue d = (LCommit tn, k) :: q ->
  act_step d AApply = Some (Done (d', r)) -> RShard ev ∈ r ->
  exists u, m_prepared (meaning_of es) !! tn = Some u /\ succeeded ev = true /\
    m_store (meaning_of (es ++ [LCommit tn])) = u ∪ m_store (meaning_of es).
Proof.
  intros H%leads_linv Eq E Hr. cbn [act_step] in E. unfold apply_entry in E. rewrite Eq in E.
  cbn [r_apply] in E. unfold r_commit in E.
  pose proof (proj2 (l_agree _ _ H) tn) as Ht.
  destruct (l_qcomm _ _ H [] tn k q Eq) as [_ Hnc].
  destruct (r_tickets (d_rep d) !! tn) as [rt|] eqn:Ert.
  2: { injection E as <- <-. apply elem_of_list_singleton in Hr. discriminate. }
  destruct (r_committed rt); [now destruct Ht|]. destruct Ht as [Hu _].
  destruct (l_prep _ _ H tn _ Hu) as (t & Hvt & Hvp & Hvu).
  destruct (prepared_commits (d_vol d) tn t (l_reach _ _ H) Hvt Hvp) as (s' & ev' & E' & Hs & _).
  rewrite E' in E. cbn in E. injection E as <- <-. apply elem_of_list_singleton in Hr.
  injection Hr as ->. exists (r_update rt). split; [done|]. split; [done|].
  rewrite meaning_snoc. cbn [means]. now rewrite Hu.
Qed.

(** Nothing is acknowledged before it is replicated. *)
Lemma no_early_answer d o ok e d' r : entry_of o = Some e ->
  act_step d (AServe o ok) = Some (Done (d', r)) ->
  RPrepared ∉ r /\ (forall ev, RShard ev ∈ r -> succeeded ev = false) /\
  (r = [] -> ok = true /\ exists k, d_queue d' = d_queue d ++ [(e, k)]).
Proof.
  intros Ho E. cbn [act_step] in E. injection E as E. unfold serve in E.
  assert (forall e' k0, (if ok then Done (Leader (d_vol d) (d_rep d) (d_queue d ++ [(e', k0)]), [])
      else Done (d, [RInternal])) = Done (d', r) -> e' = e ->
    RPrepared ∉ r /\ (forall ev, RShard ev ∈ r -> succeeded ev = false) /\
    (r = [] -> ok = true /\ exists k, d_queue d' = d_queue d ++ [(e, k)])) as Hput.
  { intros e' k0 Ex ->. destruct ok; injection Ex as <- <-.
    - split; [apply not_elem_of_nil|]. split; [intros ev He; now apply elem_of_nil in He|]. eauto.
    - split; [intros He; apply elem_of_list_singleton in He; discriminate|].
      split; [intros ev He; apply elem_of_list_singleton in He; discriminate|done]. }
  destruct o as [| | | | |]; try discriminate Ho; injection Ho as <-.
  2, 3, 4: eapply Hput; [exact E|done].
  clear Hput. assert (forall s ev, step (d_vol d) (OPrepare tn broker upd) = Done (s, ev) ->
    ev = [EReply None] \/ exists x, ev = [EReply (Some x)]) as Hev.
  { cbn [step]. unfold prepare. intros s ev Ex.
    destruct (s_tk (d_vol d) !! tn) as [t|]; [|injection Ex as <- <-; eauto].
    destruct (t_state t); try (injection Ex as <- <-; eauto; fail).
    destruct (negb _); [injection Ex as <- <-; eauto|].
    destruct (check_update _ _); injection Ex as <- <-; eauto. }
  destruct (step (d_vol d) (OPrepare tn broker upd)) as [[s ev]| | |]; try discriminate E.
  cbn [bind] in E. destruct (Hev s ev eq_refl) as [->|[x ->]].
  - destruct ok; injection E as <- <-; cbn [d_queue].
    + split; [apply not_elem_of_nil|]. split; [intros ev He; now apply elem_of_nil in He|]. eauto.
    + split; [intros He; apply elem_of_list_singleton in He; discriminate|].
      split; [intros ev He; apply elem_of_list_singleton in He; discriminate|done].
  - injection E as <- <-. split; [intros He; apply elem_of_list_singleton in He; discriminate|].
    split; [|done]. intros ev He. apply elem_of_list_singleton in He. injection He as ->. done.
Qed.
