(** What a shard's operations do to one ticket, as the broker's proofs need it. *)
From stdpp Require Import base option list gmap fin_maps fin_sets.
From Coq Require Import NArith Lia.
From Verif Require Import Base ParsecShardModel ParsecShardSpec ParsecShardProofs ParsecShardSteps
  ParsecShardRuns ParsecShardFinal.
Open Scope N_scope.

(** A ticket on a shard, seen from the broker. *)
Inductive status := Absent | Active | Ready (u : gmap key bytes) | Applied.

Definition tstatus (t : ticket) : status :=
  match t_state t with
  | Begun | Wounded => Active
  | Prepared => Ready (t_update t)
  | Committed => Applied
  end.
Definition status_of (s : shard) (tn : ticket_no) : status :=
  match s_tk s !! tn with None => Absent | Some t => tstatus t end.

Definition op_tn (o : op) : option ticket_no :=
  match o with
  | OTryLock _ tn _ _ _ _ | OPrepare tn _ _ | OCommit tn | ORollback tn | OFinish tn => Some tn
  | OGetTickets _ => None
  end.

Definition locks_only (ev : list event) : Prop := forall e, e ∈ ev -> exists rid a, e = ELock rid a.

Lemma keeps_status t t' : keeps t t' -> tstatus t' = tstatus t.
Proof. intros (A & B & _). unfold tstatus. now rewrite A, B. Qed.

Lemma served_status P s s' ev tn :
  served P s s' ev -> (forall t t', s_tk s !! tn = Some t -> P tn t t' -> tstatus t' = tstatus t) ->
  status_of s' tn = status_of s tn.
Proof.
  intros H HP. unfold status_of. destruct (s_tk s !! tn) as [t|] eqn:E.
  - destruct (v_tk _ _ _ _ H tn t E) as (t' & -> & [Hk|Hp]); [now apply keeps_status|now apply HP].
  - now rewrite (v_none _ _ _ _ H tn E).
Qed.

Definition woundP (tn a : ticket_no) (t t' : ticket) :=
  t_state t <> Prepared /\ t_state t' = Wounded /\ tn < a /\ t_state t <> Committed.
Lemma wound_status tn a t t' : woundP tn a t t' -> tstatus t' = tstatus t.
Proof. intros (A & B & _ & C). unfold tstatus. rewrite B. now destruct (t_state t). Qed.

Lemma enqueue_status s rid tn b k m t a :
  s_tk s !! tn = Some t -> status_of (enqueue s rid tn b k m t) a = status_of s a.
Proof.
  intros Ht. unfold status_of, enqueue. cbn. destruct (decide (a = tn)) as [->|].
  - now rewrite lookup_insert, Ht.
  - now rewrite lookup_insert_ne by congruence.
Qed.

Lemma lock_status s rid tn b k m first s' ev :
  inv s -> try_lock s rid tn b k m first = Done (s', ev) ->
  locks_only ev /\
  (forall a, a <> tn \/ status_of s a <> Absent -> status_of s' a = status_of s a) /\
  (status_of s tn = Absent -> status_of s' tn = Absent \/ status_of s' tn = Active).
Proof.
  intros H E. pose proof (try_lock_outcome s rid tn b k m first H) as Ho. rewrite E in Ho.
  inversion Ho as [|Hn|t1 e d Ht1 Hc1|f s0 t1 s1 ev1 Ht0 Hst Hs0 Hh Hk H0 H1 Hs]; subst.
  - split; [|split; [done|now left]]. intros x ->%elem_of_list_singleton. eauto.
  - split; [|split; [done|now left]]. intros x ->%elem_of_list_singleton. eauto.
  - assert (Hse : forall a, status_of s' a = status_of s0 a).
    { intros a. rewrite <- (enqueue_status s0 rid tn b k m t1 a Ht0).
      apply (served_status _ _ _ _ a Hs). intros t t' _. apply (wound_status tn a). }
    split; [exact (v_lock _ _ _ _ Hs)|]. split.
    + intros a Ha. rewrite Hse. destruct Hs0 as [[_ ->]|(_ & Hn & -> & ->)]; [done|].
      assert (a <> tn) as Hne.
      { destruct Ha as [Ha|Ha]; [done|]. intros ->. apply Ha. unfold status_of. now rewrite Hn. }
      unfold status_of. cbn. now rewrite lookup_insert_ne by congruence.
    + intros Ha. rewrite Hse. unfold status_of. rewrite Ht0. unfold tstatus. rewrite Hst. now right.
Qed.

Lemma prepare_status s tn b u s' ev :
  inv s -> step s (OPrepare tn b u) = Done (s', ev) ->
  (forall a, a <> tn -> status_of s' a = status_of s a) /\
  ((exists e, status_of s' tn = status_of s tn /\ ev = [EReply (Some e)]) \/
   (status_of s tn = Active /\ status_of s' tn = Ready u /\ ev = [EReply None])).
Proof.
  intros H E. cbn [step] in E. pose proof (prepare_outcome_ok s tn u H) as Ho. rewrite E in Ho.
  inversion Ho as [e d|t1 Ht1 Hst1 Hq1 Hh s1 Hi]; subst.
  - split; [done|]. left. eauto.
  - split.
    + intros a Ha. unfold status_of. cbn. now rewrite lookup_insert_ne by congruence.
    + right. unfold status_of. cbn. rewrite Ht1, lookup_insert. unfold tstatus. now rewrite Hst1.
Qed.

Lemma commit_status s tn s' ev :
  inv s -> step s (OCommit tn) = Done (s', ev) ->
  (forall a, a <> tn -> status_of s' a = status_of s a) /\
  ((exists e, s' = s /\ (forall u, status_of s tn <> Ready u) /\ ev = [EReply (Some e)]) \/
   (exists t lev, s_tk s !! tn = Some t /\ t_state t = Prepared /\ status_of s' tn = Applied /\
      ev = lev ++ [EReply None] /\ locks_only lev)).
Proof.
  intros H E. cbn [step] in E. pose proof (commit_outcome_ok s tn H) as Ho. rewrite E in Ho.
  inversion Ho as [e Hn|t1 s1 s2 ev1 Ht1 Hst Htk Hel H1 H2 Ht2 Hs]; subst.
  - split; [done|]. left. exists (e, None). split; [done|]. split; [|done].
    intros u. unfold status_of, tstatus. destruct (s_tk s' !! tn) as [t|] eqn:Et; [|done].
    destruct (t_state t) eqn:Es; try done. intros _. apply Hn. exists t. auto.
  - split.
    + intros a Ha. transitivity (status_of s1 a).
      * apply (served_status _ _ _ _ a Hs). done.
      * unfold status_of. now rewrite Htk.
    + right. exists t1, ev1. split; [done|]. split; [done|].
      destruct Ht2 as (t' & Ht' & Hst'). split.
      * unfold status_of. rewrite Ht'. unfold tstatus. now rewrite Hst'.
      * split; [done|]. exact (v_lock _ _ _ _ Hs).
Qed.

Lemma rollback_status s tn s' ev :
  inv s -> step s (ORollback tn) = Done (s', ev) ->
  (forall a, a <> tn -> status_of s' a = status_of s a) /\ status_of s' tn = Absent /\
  ((exists e, s' = s /\ status_of s tn = Absent /\ ev = [EReply (Some e)]) \/
   (exists lev, status_of s tn <> Absent /\ ev = lev ++ [EReply None] /\ locks_only lev)).
Proof.
  intros H E. cbn [step] in E. pose proof (rollback_outcome_ok s tn H) as Ho. rewrite E in Ho.
  inversion Ho as [Hn|t1 s1 ev1 Ht1 Hi1 Hs Hh]; subst.
  - assert (Ha : status_of s' tn = Absent) by (unfold status_of; now rewrite Hn).
    split; [done|]. split; [done|]. left. eauto.
  - split; [|split].
    + intros a Ha. transitivity (status_of s1 a).
      * unfold status_of. cbn. now rewrite lookup_delete_ne by congruence.
      * apply (served_status _ _ _ _ a Hs). done.
    + unfold status_of. cbn. now rewrite lookup_delete.
    + right. exists ev1. split; [|split; [done|exact (v_lock _ _ _ _ Hs)]].
      unfold status_of. rewrite Ht1. unfold tstatus. now destruct (t_state t1).
Qed.

Lemma finish_status s tn s' ev :
  inv s -> step s (OFinish tn) = Done (s', ev) ->
  (forall a, a <> tn -> status_of s' a = status_of s a) /\
  ((exists e, s' = s /\ ev = [EReply (Some e)]) \/
   (status_of s tn = Applied /\ status_of s' tn = Absent /\ ev = [EReply None])).
Proof.
  intros H E. cbn [step] in E. pose proof (finish_outcome_ok s tn H) as Ho. rewrite E in Ho.
  inversion Ho as [e|t1 Ht1 Hst Hi]; subst.
  - split; [done|]. left. eauto.
  - split.
    + intros a Ha. unfold status_of. cbn. now rewrite lookup_delete_ne by congruence.
    + right. unfold status_of. cbn. rewrite Ht1, lookup_delete. unfold tstatus. now rewrite Hst.
Qed.

Lemma get_status s b s' ev :
  step s (OGetTickets b) = Done (s', ev) ->
  s' = s /\ ev = [ETickets (t_state <$> filter (fun p => t_broker p.2 = b) (s_tk s))].
Proof. cbn. unfold get_tickets. now intros [= <- <-]. Qed.

Lemma other_status s o s' ev tn :
  inv s -> step s o = Done (s', ev) -> op_tn o <> Some tn -> status_of s' tn = status_of s tn.
Proof.
  intros H E Hne. destruct o as [rid a b k m first|a b u|a|a|a|b]; cbn [op_tn] in Hne.
  - destruct (lock_status _ _ _ _ _ _ _ _ _ H E) as (_ & Hs & _). apply Hs. left. congruence.
  - destruct (prepare_status _ _ _ _ _ _ H E) as [Hs _]. apply Hs. congruence.
  - destruct (commit_status _ _ _ _ H E) as [Hs _]. apply Hs. congruence.
  - destruct (rollback_status _ _ _ _ H E) as [Hs _]. apply Hs. congruence.
  - destruct (finish_status _ _ _ _ H E) as [Hs _]. apply Hs. congruence.
  - destruct (get_status _ _ _ _ E) as [-> _]. done.
Qed.

(** ** The broker a ticket belongs to *)

Definition bk (s s' : shard) : Prop := forall a t, s_tk s !! a = Some t ->
  exists t', s_tk s' !! a = Some t' /\ t_broker t' = t_broker t.
Lemma bk_refl s : bk s s.
Proof. intros a t. eauto. Qed.
Lemma bk_trans s s1 s2 : bk s s1 -> bk s1 s2 -> bk s s2.
Proof.
  intros A B a t Ht. destruct (A a t Ht) as (t1 & Ht1 & E1).
  destruct (B a t1 Ht1) as (t2 & Ht2 & E2). exists t2. split; [done|]. congruence.
Qed.
Lemma bk_set s tn t' : t_broker t' = t_broker (tkt s tn) -> bk s (set_tk s tn t').
Proof.
  intros E a t Ht. cbn. destruct (decide (a = tn)) as [->|Hne].
  - rewrite lookup_insert. exists t'. split; [done|]. rewrite E. unfold tkt. now rewrite Ht.
  - rewrite lookup_insert_ne by congruence. eauto.
Qed.
Lemma bk_same s s' : s_tk s' = s_tk s -> bk s s'.
Proof. intros E a t. rewrite E. eauto. Qed.

Lemma release_queued_tk tn d ks : forall s s' ev,
  release_queued s tn d ks = Done (s', ev) -> s_tk s' = s_tk s.
Proof.
  induction ks as [|k r IH]; intros s s' ev; cbn [release_queued].
  - now intros [= <- <-].
  - destruct (q_extract _ _) as [[x|] q']; [|discriminate].
    destruct (release_queued _ _ _ r) as [[s2 ev2]| | |] eqn:E; try discriminate. cbn [bind].
    intros [= <- <-]. rewrite (IH _ _ _ E). done.
Qed.
Lemma release_held_tk tn ls : forall s, s_tk (release_held s tn ls) = s_tk s.
Proof.
  induction ls as [|[k m] r IH]; intros s; cbn [release_held]; [done|]. now rewrite IH.
Qed.
Lemma release_locks_bk s tn s' ev ks : release_locks s tn = Done (s', ev, ks) -> bk s s'.
Proof.
  unfold release_locks. destruct (release_queued _ _ _ _) as [[s1 ev1]| | |] eqn:E; try discriminate.
  cbn [bind]. intros [= <- <- <-]. apply release_queued_tk in E.
  intros a t Ht. cbn. rewrite release_held_tk, E. destruct (decide (a = tn)) as [->|Hne].
  - rewrite lookup_insert. eexists. split; [done|]. cbn. unfold tkt. now rewrite Ht.
  - rewrite lookup_insert_ne by congruence. eauto.
Qed.
Lemma acquire_lock_bk s k s' ev b : acquire_lock s k = (s', ev, b) -> bk s s'.
Proof.
  unfold acquire_lock. destruct (e_queue (el s k)) as [|x q]; [intros [= <- _ _]; apply bk_refl|].
  assert (Hg : forall wr rd tt, t_broker tt = t_broker (tkt s (q_tn x)) ->
     bk s (set_tk (set_el s k (Elem (e_val (el s k)) wr rd q)) (q_tn x) tt)).
  { intros wr rd tt Ett. eapply bk_trans; [apply (bk_same s (set_el s k (Elem (e_val (el s k)) wr rd q))); done|].
    apply bk_set. exact Ett. }
  repeat match goal with
  | |- context [match q_mode x with _ => _ end] => destruct (q_mode x)
  | |- context [match e_writer ?e with _ => _ end] => destruct (e_writer e)
  | |- context [if ?c then _ else _] => destruct c
  end; intros [= <- _ _]; first [apply bk_refl | apply Hg; reflexivity].
Qed.
Lemma acquire_key_bk k fuel : forall s s' ev, acquire_key fuel s k = Done (s', ev) -> bk s s'.
Proof.
  induction fuel as [|f IH]; intros s s' ev; cbn [acquire_key]; [discriminate|].
  destruct (acquire_lock s k) as [[s1 ev1] [|]] eqn:E; apply acquire_lock_bk in E.
  - destruct (acquire_key f s1 k) as [[s2 ev2]| | |] eqn:E2; try discriminate. cbn [bind].
    intros [= <- _]. eapply bk_trans; [exact E|]. eapply IH, E2.
  - now intros [= <- _].
Qed.
Lemma acquire_locks_bk ks : forall s s' ev, acquire_locks s ks = Done (s', ev) -> bk s s'.
Proof.
  induction ks as [|k r IH]; intros s s' ev; cbn [acquire_locks].
  - intros [= <- _]. apply bk_refl.
  - destruct (acquire_key _ s k) as [[s1 ev1]| | |] eqn:E; try discriminate. cbn [bind].
    destruct (acquire_locks s1 r) as [[s2 ev2]| | |] eqn:E2; try discriminate. cbn [bind].
    intros [= <- _]. eapply bk_trans; [eapply acquire_key_bk, E|]. eapply IH, E2.
Qed.
Lemma wound_loop_bk k tn bs : forall s s' ev ks, wound_loop s k bs tn = Done (s', ev, ks) -> bk s s'.
Proof.
  induction bs as [|b r IH]; intros s s' ev ks; cbn [wound_loop].
  - intros [= <- _ _]. apply bk_refl.
  - assert (Hw : forall x, bind (release_locks (set_tk s b (Ticket Wounded (t_held (tkt s b))
        (t_queued (tkt s b)) (t_update (tkt s b)) (t_broker (tkt s b)) (Some (tn, k)))) b)
        (fun '(s2, ev, ks) => bind (wound_loop s2 k r tn) (fun '(s3, ev', ks') =>
              Done (s3, ev ++ ev', ks ∪ ks'))) = x -> x = Done (s', ev, ks) -> bk s s').
    { intros x <-. destruct (release_locks _ b) as [[[s1 ev1] ks1]| | |] eqn:E; try discriminate. cbn [bind].
      destruct (wound_loop s1 k r tn) as [[[s2 ev2] ks2]| | |] eqn:E2; try discriminate. cbn [bind].
      intros [= <- _ _]. eapply bk_trans; [|eapply bk_trans; [eapply release_locks_bk, E|eapply IH, E2]].
      apply bk_set. done. }
    destruct (t_state (tkt s b)) eqn:Es; try (apply (Hw _ eq_refl)).
    intros E. eapply bk_trans; [|eapply IH, E]. now apply bk_set.
Qed.
Lemma wound_tickets_bk s k bs tn s' ev : wound_tickets s k bs tn = Done (s', ev) -> bk s s'.
Proof.
  unfold wound_tickets. destruct (wound_loop s k bs tn) as [[[s1 ev1] ks1]| | |] eqn:E; try discriminate.
  cbn [bind]. destruct (acquire_locks s1 _) as [[s2 ev2]| | |] eqn:E2; try discriminate. cbn [bind].
  intros [= <- _]. eapply bk_trans; [eapply wound_loop_bk, E|eapply acquire_locks_bk, E2].
Qed.

Lemma write_values_bk ws : forall s, bk s (write_values s ws).
Proof.
  induction ws as [|[k v] r IH]; intros s; cbn [write_values]; [apply bk_refl|].
  eapply bk_trans; [|apply IH]. now apply bk_same.
Qed.

(** A ticket keeps its broker; a new one gets the broker of the request. *)
Lemma step_brokers s o s' ev a t' :
  inv s -> step s o = Done (s', ev) -> s_tk s' !! a = Some t' ->
  (exists t, s_tk s !! a = Some t /\
     (t_broker t' = t_broker t \/ exists rid b k m f, o = OTryLock rid a b k m f /\ t_broker t' = b)) \/
  (exists rid b k m f, s_tk s !! a = None /\ o = OTryLock rid a b k m f /\ t_broker t' = b).
Proof.
  intros H E Ht'.
  assert (Hbk : bk s s' -> forall t, s_tk s !! a = Some t -> t_broker t' = t_broker t).
  { intros B t Ht. destruct (B a t Ht) as (t2 & Ht2 & <-). congruence. }
  destruct o as [rid tn b k m first|tn b u|tn|tn|tn|b]; cbn [step] in E.
  - pose proof E as E0. unfold try_lock in E.
    assert (Hgo : forall s0 t0, s_tk s0 !! tn = Some t0 ->
       wound_tickets (enqueue s0 rid tn b k m t0) k (get_waiting_on tn m (el s0 k)) tn = Done (s', ev) ->
       (a = tn /\ t_broker t' = b) \/
       (a <> tn /\ forall t, s_tk s0 !! a = Some t -> t_broker t' = t_broker t)).
    { intros s0 t0 Ht0 Ew. apply wound_tickets_bk in Ew. destruct (decide (a = tn)) as [->|Hne].
      - left. split; [done|]. destruct (Ew tn) with (t := Ticket (t_state t0) (t_held t0)
          (t_queued t0 ∪ {[k]}) (t_update t0) b (t_details t0)) as (t2 & Ht2 & Eb).
        { unfold enqueue. cbn. apply lookup_insert. }
        cbn in Eb. congruence.
      - right. split; [done|]. intros t Ht. destruct (Ew a t) as (t2 & Ht2 & Eb).
        { unfold enqueue. cbn. now rewrite lookup_insert_ne by congruence. }
        congruence. }
    assert (Hnone : a <> tn -> s_tk s !! a = None -> False).
    { intros Hne Hn. assert (Hs : status_of s' a = status_of s a).
      { apply (other_status s (OTryLock rid tn b k m first) s' ev a H E0). cbn. congruence. }
      unfold status_of in Hs. rewrite Hn, Ht' in Hs. unfold tstatus in Hs.
      destruct (t_state t'); discriminate. }
    pose proof (try_lock_outcome s rid tn b k m first H) as Ho. rewrite E0 in Ho.
    inversion Ho as [|Hn|t1 e d Ht1 Hc1|f s0 t1 s1 ev1 Ht0 Hst Hs0 Hh Hk H0 H1 Hs]; subst.
    + left. eauto.
    + left. eauto.
    + assert (Ew : wound_tickets (enqueue s0 rid tn b k m t1) k (get_waiting_on tn m (el s0 k)) tn = Done (s', ev)).
      { assert (Hd : (match t_held t1 !! k with Some h => lt_ge h m | None => false end) = false).
        { destruct (t_held t1 !! k) as [h|] eqn:Eh; [|done]. destruct (Hh h eq_refl) as [-> ->]. done. }
        destruct Hs0 as [[-> ->]|(-> & Hn & -> & ->)].
        - rewrite Ht0, Hst, Hd in E. rewrite bool_decide_eq_false_2 in E by done.
          unfold enqueue. rewrite Hst. exact E.
        - rewrite Hn in E. cbn [t_state ticket0] in E. rewrite Hd in E.
          rewrite bool_decide_eq_false_2 in E by done. exact E. }
      destruct (Hgo _ _ Ht0 Ew) as [[-> Eb]|[Hne Hb]].
      * destruct (s_tk s !! tn) as [t|] eqn:Et; [left|right].
        -- exists t. split; [done|]. right. eauto 10.
        -- eauto 10.
      * destruct (s_tk s !! a) as [t|] eqn:Et; [|exfalso; now apply Hnone].
        left. exists t. split; [done|]. left. apply Hb.
        destruct Hs0 as [[_ ->]|(_ & _ & _ & ->)]; [done|]. cbn. now rewrite lookup_insert_ne by congruence.
  - pose proof (prepare_outcome_ok s tn u H) as Ho. rewrite E in Ho.
    inversion Ho as [e d|t1 Ht1 Hst1 Hq1 Hh s1 Hi]; subst; [left; eauto|].
    cbn in Ht'. left. destruct (decide (a = tn)) as [->|Hne].
    + rewrite lookup_insert in Ht'. injection Ht' as <-. eauto.
    + rewrite lookup_insert_ne in Ht' by congruence. eauto.
  - left. destruct (s_tk s !! a) as [t|] eqn:Et.
    + exists t. split; [done|]. left. apply Hbk; [|done]. clear Hbk Ht' Et.
      unfold commit in E. destruct (s_tk s !! tn) as [t1|]; [|injection E as <- _; apply bk_refl].
      destruct (t_state t1); try (injection E as <- _; apply bk_refl).
      destruct (release_locks _ tn) as [[[s1 w] ks]| | |] eqn:E1; try discriminate. cbn [bind] in E.
      destruct w; [|discriminate].
      destruct (acquire_locks s1 _) as [[s2 ev2]| | |] eqn:E2; try discriminate. cbn [bind] in E.
      injection E as <- _.
      eapply bk_trans; [apply write_values_bk|]. eapply bk_trans; [eapply release_locks_bk, E1|].
      eapply bk_trans; [eapply acquire_locks_bk, E2|]. now apply bk_set.
    + exfalso. destruct (decide (a = tn)) as [->|Hne].
      * unfold commit in E. rewrite Et in E. injection E as <- _. congruence.
      * pose proof (other_status s (OCommit tn) s' ev a H E) as Hs.
        unfold status_of in Hs. cbn in Hs. rewrite Et, Ht' in Hs. unfold tstatus in Hs.
        specialize (Hs ltac:(congruence)). destruct (t_state t'); discriminate.
  - left. destruct (s_tk s !! a) as [t|] eqn:Et.
    + exists t. split; [done|]. left.
      unfold rollback in E. destruct (s_tk s !! tn) as [t1|]; [|injection E as <- _; congruence].
      destruct (release_locks s tn) as [[[s1 w] ks]| | |] eqn:E1; try discriminate. cbn [bind] in E.
      destruct (acquire_locks s1 _) as [[s2 ev2]| | |] eqn:E2; try discriminate. cbn [bind] in E.
      injection E as <- _. cbn in Ht'. apply lookup_delete_Some in Ht' as [Hne Ht'].
      assert (B : bk s s2) by (eapply bk_trans; [eapply release_locks_bk, E1|eapply acquire_locks_bk, E2]).
      destruct (B a t Et) as (t2 & Ht2 & <-). congruence.
    + exfalso. destruct (decide (a = tn)) as [->|Hne].
      * unfold rollback in E. rewrite Et in E. injection E as <- _. congruence.
      * pose proof (other_status s (ORollback tn) s' ev a H E) as Hs.
        unfold status_of in Hs. cbn in Hs. rewrite Et, Ht' in Hs. unfold tstatus in Hs.
        specialize (Hs ltac:(congruence)). destruct (t_state t'); discriminate.
  - left. pose proof (finish_outcome_ok s tn H) as Ho. rewrite E in Ho.
    inversion Ho as [e|t1 Ht1 Hst Hi]; subst; [eauto|].
    cbn in Ht'. apply lookup_delete_Some in Ht' as [_ Ht']. eauto.
  - unfold get_tickets in E. injection E as <- _. left. eauto.
Qed.
