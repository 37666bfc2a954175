(** Proofs about one agent, whoever calls exec and however the broker answers. *)
From stdpp Require Import base option list gmap fin_maps.
From Coq Require Import NArith Lia.
From Verif Require Import Base ParsecShardModel BrokerModel AgentModel AgentSpec.
Open Scope N_scope.

Section Agent.
Context (fn : bytes) (ilt : lock_type) (ro : bool).
Notation payload u := (if ro then ∅ else u : updates).

(** What must hold of each thing an agent does, given what came before. *)
Definition fine (i : item) (e : list item) : Prop :=
  match i with
  | Out (OReq _ q) =>
      (forall t, names q = Some t -> assigned e t) /\
      (forall t u, q = QaCommit t u -> exists u0, computed e u0 /\ u = payload u0) /\
      (ro = true -> writes_nothing q)
  | Out (OReport (Done u)) =>
      exists t c t' u', asked e c (QaCommit t (payload u)) /\ commit_ok e t' u' /\ finish_ok e t
  | Out (ODie d) =>
      match d with
      | NoTicket => upkeep_failed e
      | AssertFails => exists e', e = In EvExec :: e'
      | _ => False
      end
  | _ => True
  end.

Fixpoint good (tr : list item) : Prop :=
  match tr with
  | [] => True
  | i :: e => fine i e /\ good e
  end.

Lemma good_past tr i e : good tr -> past tr i e -> fine i e.
Proof.
  intros Hg [l ->]. induction l as [|x l IH]; cbn in Hg; [apply Hg|apply IH, Hg].
Qed.

(** What holds of an agent at every moment. *)
Record core (a : agent) : Prop := {
  c_good : good (a_tr a);
  c_made : forall id q, a_made a !! id = Some q <-> asked (a_tr a) id q;
  c_next : forall id q, a_made a !! id = Some q -> id < a_next a;
  c_tk : forall t, a_tk a = Some t -> assigned (a_tr a) t;
  c_one : forall o q t, Out (OReq o q) ∈ a_tr a -> names q = Some t -> a_tk a = Some t;
  c_ans : forall id r, got (a_tr a) id r -> is_Some (a_made a !! id);
  c_run : forall o v, Out (OReq o (QaRun v)) ∈ a_tr a -> a_tk a <> None;
  c_res : forall u, a_res a = Some (Done u) -> computed (a_tr a) u
}.

(** Between two calls, for each state. *)
Definition has_tk (a : agent) : Prop := exists t, a_tk a = Some t.
Definition failed (a : agent) : Prop := exists e, a_res a = Some (Fail e).

Definition cdone (a : agent) (u : updates) : Prop :=
  exists t c t' u', a_tk a = Some t /\ asked (a_tr a) c (QaCommit t (payload u)) /\
    commit_ok (a_tr a) t' u'.

Definition rest (a : agent) : Prop :=
  match a_st a with
  | AInit | ABeginSent => a_tk a = None
  | AGetSent | AStarted => has_tk a
  | ACommitSent => exists t u c, a_tk a = Some t /\ a_res a = Some (Done u) /\
                    asked (a_tr a) c (QaCommit t (payload u))
  | AFinishSent => has_tk a /\ exists r, a_res a = Some r /\ (forall u, r = Done u -> cdone a u)
  | AFinishFailed => has_tk a /\ failed a
  | AFinishComplete => has_tk a
  | ARollbackSent | ARollbackFailed => has_tk a /\ (a_perm a = true -> failed a)
  | ARollbackComplete => has_tk a
  | _ => False
  end.

Definition inv (a : agent) : Prop := core a /\ (a_dead a = true \/ rest a).

(** ** The trace grows *)

Lemma asked_cons tr i id q : asked tr id q -> asked (i :: tr) id q.
Proof. apply elem_of_list_further. Qed.
Lemma got_cons tr i id r : got tr id r -> got (i :: tr) id r.
Proof. apply elem_of_list_further. Qed.
Lemma assigned_cons tr i t : assigned tr t -> assigned (i :: tr) t.
Proof. intros (b & H1 & H2). exists b. split; [by apply asked_cons|by apply got_cons]. Qed.
Lemma computed_cons tr i u : computed tr u -> computed (i :: tr) u.
Proof.
  intros (r & v & H1 & H2). exists r, v. split; [by apply asked_cons|by apply elem_of_list_further].
Qed.
Lemma commit_ok_cons tr i t u : commit_ok tr t u -> commit_ok (i :: tr) t u.
Proof. intros (c & H1 & H2). exists c. split; [by apply asked_cons|by apply got_cons]. Qed.

(** ** Elementary operations *)

Lemma core_same a b : core a ->
  a_tr b = a_tr a -> a_made b = a_made a -> a_next b = a_next a -> a_tk b = a_tk a ->
  (forall u, a_res b = Some (Done u) -> a_res a = Some (Done u)) -> core b.
Proof.
  intros [H1 H2 H3 H4 H5 H8 H7 H6] Ht Hm Hn Hk Hr.
  split; rewrite ?Ht, ?Hm, ?Hn, ?Hk; try done. eauto.
Qed.

Lemma core_emit a i : core a -> fine i (a_tr a) ->
  (forall o q, i <> Out (OReq o q)) ->
  (forall id r, i = In (EvAnswer id r) -> is_Some (a_made a !! id)) -> core (emit a i).
Proof.
  intros [H1 H2 H3 H4 H5 H8 H7 H6] Hf Hn Ha. split; cbn.
  - done.
  - intros id q. rewrite H2. unfold asked. rewrite elem_of_cons. split; [by right|].
    intros [E|E]; [|done]. by destruct (Hn (Some id) q).
  - done.
  - intros t Ht. apply assigned_cons. auto.
  - intros o q t. rewrite elem_of_cons. intros [E|E]; [|by eauto]. by destruct (Hn o q).
  - intros id r H. apply elem_of_cons in H as [<- |H]; eauto.
  - intros o v. rewrite elem_of_cons. intros [E|E]; [|by eauto]. by destruct (Hn o (QaRun v)).
  - intros u Hu. apply computed_cons. auto.
Qed.

Lemma core_die a d : core a -> fine (Out (ODie d)) (a_tr a) -> core (die a d).
Proof.
  intros H Hf. eapply (core_same (emit a (Out (ODie d)))); try done.
  by apply core_emit.
Qed.

Lemma core_ask a q a' c : core a -> ask a q = (a', c) ->
  (forall t, names q = Some t -> a_tk a = Some t) ->
  (forall t u, q = QaCommit t u -> exists u0, a_res a = Some (Done u0) /\ u = payload u0) ->
  (ro = true -> writes_nothing q) ->
  (forall v, q = QaRun v -> a_tk a <> None) ->
  core a' /\ a_st a' = a_st a /\ a_tk a' = a_tk a /\ a_res a' = a_res a /\
  a_perm a' = a_perm a /\ a_dead a' = a_dead a /\
  (match c with
   | Refuse => a_tr a' = Out (OReq None q) :: a_tr a
   | _ => a_tr a' = Out (OReq (Some (a_next a)) q) :: a_tr a
   end).
Proof.
  intros HC Ha Hn Hc Hw Hrun.
  assert (Hf : fine (Out (OReq (Some (a_next a)) q)) (a_tr a) /\ fine (Out (OReq None q)) (a_tr a)).
  { destruct HC. cbn. split; (split; [|split]); auto; intros t u E;
      destruct (Hc _ _ E) as (u0 & Hu & ->); eauto. }
  destruct HC as [H1 H2 H3 H4 H5 H8 H7 H6].
  unfold ask in Ha. destruct (match a_ch a with [] => Later | c :: _ => c end) eqn:Ec;
    injection Ha as <- <-; cbn; (split; [|by rewrite ?Ec]).
  - split; cbn.
    + split; [apply Hf|done].
    + intros id q'. rewrite H2. unfold asked. rewrite elem_of_cons. split; [by right|]. by intros [?|?].
    + done.
    + intros t Ht. apply assigned_cons. auto.
    + intros o q' t. rewrite elem_of_cons. intros [E|E]; [|by eauto]. injection E as -> ->. auto.
    + intros id r H. apply elem_of_cons in H as [H|H]; [discriminate H|]. eauto.
    + intros o v. rewrite elem_of_cons. intros [E|E]; [|by eauto]. injection E as -> <-. by eapply Hrun.
    + intros u Hu. apply computed_cons. auto.
  - split; cbn.
    + split; [apply Hf|done].
    + intros id q'. unfold asked. rewrite elem_of_cons, lookup_insert_Some, H2. split.
      * intros [[-> ->]|[Hne E]]; [by left|by right].
      * intros [E|E]; [injection E as -> ->; by left|].
        right. split; [|done]. apply H2, H3 in E. lia.
    + intros id q'. rewrite lookup_insert_Some. intros [[-> ->]|[Hne E]]; [lia|]. apply H3 in E. lia.
    + intros t Ht. apply assigned_cons. auto.
    + intros o q' t. rewrite elem_of_cons. intros [E|E]; [|by eauto]. injection E as -> ->. auto.
    + intros id r H. apply elem_of_cons in H as [H|H]; [discriminate H|]. apply lookup_insert_is_Some'. right. eauto.
    + intros o v. rewrite elem_of_cons. intros [E|E]; [|by eauto]. injection E as -> <-. by eapply Hrun.
    + intros u Hu. apply computed_cons. auto.
  - split; cbn.
    + split; [apply Hf|done].
    + intros id q'. unfold asked. rewrite elem_of_cons, lookup_insert_Some, H2. split.
      * intros [[-> ->]|[Hne E]]; [by left|by right].
      * intros [E|E]; [injection E as -> ->; by left|].
        right. split; [|done]. apply H2, H3 in E. lia.
    + intros id q'. rewrite lookup_insert_Some. intros [[-> ->]|[Hne E]]; [lia|]. apply H3 in E. lia.
    + intros t Ht. apply assigned_cons. auto.
    + intros o q' t. rewrite elem_of_cons. intros [E|E]; [|by eauto]. injection E as -> ->. auto.
    + intros id r' H. apply elem_of_cons in H as [H|H]; [discriminate H|]. apply lookup_insert_is_Some'. right. eauto.
    + intros o v. rewrite elem_of_cons. intros [E|E]; [|by eauto]. injection E as -> <-. by eapply Hrun.
    + intros u Hu. apply computed_cons. auto.
Qed.

Lemma core_fail_res a s e : core a -> core (with_res (with_st a s) (Some (Fail e))).
Proof. intros H. by apply (core_same a). Qed.

(** ** The ticket number stays *)

Lemma ask_tk a q : a_tk (ask a q).1 = a_tk a.
Proof. unfold ask. destruct (a_ch a) as [|[] ?]; done. Qed.

Lemma report_tk a : a_tk (report a) = a_tk a.
Proof. unfold report. destruct (a_res a); [|done]. destruct (a_tk a) eqn:E; cbn; by rewrite ?E. Qed.

Lemma do_rollback_tk a p : a_tk (do_rollback a p) = a_tk a.
Proof.
  unfold do_rollback. destruct (a_tk a) as [t|] eqn:E; [|destruct (a_st a); done].
  pose proof (ask_tk (with_perm (with_st a ARollbackSent) p) (QaRollback t)) as H. cbn in H.
  destruct (ask (with_perm (with_st a ARollbackSent) p) (QaRollback t)) as [a1 c]. cbn in H.
  assert (a_tk (match c with
    | Refuse => report (with_res (with_st a1 ARollbackFailed) (Some (Fail XUnreachable)))
    | _ => a1 end) = Some t).
  { destruct c; [rewrite report_tk; cbn|..]; congruence. }
  by destruct (a_st a).
Qed.

Lemma do_result_tk a : a_tk (do_result a) = a_tk a.
Proof.
  unfold do_result. destruct (a_res a) as [r|]; [|done].
  destruct (a_st a); rewrite ?report_tk, ?do_rollback_tk; try done.
  - destruct (a_tk a) eqn:E; [rewrite report_tk|]; done.
  - destruct r as [|[]]; rewrite ?report_tk; done.
Qed.

Lemma fail_tk a s e : a_tk (fail a s e) = a_tk a.
Proof. unfold fail. by rewrite do_result_tk. Qed.

Lemma do_runner_tk a v : a_tk (do_runner a v) = a_tk a.
Proof.
  unfold do_runner. destruct (a_tk a) eqn:E; [|done].
  pose proof (ask_tk a (QaRun v)) as H. destruct (ask a (QaRun v)) as [a1 c]. cbn in H.
  destruct c; rewrite ?fail_tk; congruence.
Qed.

Lemma lock_cb_tk a w r : a_tk (lock_cb a w r) = a_tk a.
Proof.
  unfold lock_cb. destruct w as [c|run]; [|done].
  destruct (a_cnt a !! c) as [[[n size] v]|]; [|done].
  destruct (n + 1 =? size); rewrite ?do_runner_tk; done.
Qed.

Lemma handle_lock_tk a w r : a_tk (handle_lock a w r) = a_tk a.
Proof.
  unfold handle_lock. destruct (a_st a); try done. rewrite lock_cb_tk. by destruct (is_wounded r).
Qed.

Lemma take_lock_tk a w k m : a_tk (take_lock ro a w k m).1 = a_tk a.
Proof.
  unfold take_lock. destruct (a_tk a) as [t|] eqn:E; [|done].
  destruct (a_st a); try done.
  destruct (ro && bool_decide (m = Write)); [done|].
  destruct (a_wound a); [cbn; by rewrite handle_lock_tk|].
  set (a1 := match a_locks a !! k with Some Write => a | _ => with_locks a (<[k:=m]> (a_locks a)) end).
  assert (a_tk a1 = Some t) as H1 by (unfold a1; by destruct (a_locks a !! k) as [[]|]).
  pose proof (ask_tk a1 (QaLock w t k (if ro then Read else m))) as H.
  destruct (ask a1 _) as [a2 c]. cbn in H.
  destruct c; cbn; rewrite ?handle_lock_tk; cbn; congruence.
Qed.

(** ** The agent's functions *)

Lemma report_failed a t e : core a -> a_tk a = Some t -> a_res a = Some (Fail e) ->
  core (report a) /\ a_st (report a) = a_st a /\ a_tk (report a) = a_tk a /\
  a_res (report a) = a_res a /\ a_perm (report a) = a_perm a /\ a_dead (report a) = a_dead a.
Proof.
  intros HC Ht Hr. unfold report. rewrite Hr, Ht. cbn.
  split; [by apply core_emit|done].
Qed.

Definition can_roll (s : ast) : bool :=
  match s with
  | ACommitFailed | ARollbackSent | AException | AFailed | ACommitError | AGetFailed
  | AGetError | AStarted | ARollbackFailed => true
  | _ => false
  end.

Lemma do_rollback_inv a p : core a -> has_tk a -> can_roll (a_st a) = true ->
  (p = true -> failed a) -> inv (do_rollback a p).
Proof.
  intros HC [t Ht] Hs Hp. unfold do_rollback. rewrite Ht.
  assert (HC1 : core (with_perm (with_st a ARollbackSent) p)) by (by apply (core_same a)).
  destruct (ask (with_perm (with_st a ARollbackSent) p) (QaRollback t)) as [a1 c] eqn:E.
  eapply (core_ask _ _ _ _ HC1) in E as (HC2 & E1 & E2 & E3 & E4 & E5 & E6); try done.
  2:{ intros t' [= <-]. exact Ht. }
  cbn in *.
  assert (Hmain : inv (match c with
    | Refuse => report (with_res (with_st a1 ARollbackFailed) (Some (Fail XUnreachable)))
    | _ => a1 end)).
  { destruct c.
    - destruct (report_failed (with_res (with_st a1 ARollbackFailed) (Some (Fail XUnreachable))) t XUnreachable)
        as (F0 & F1 & F2 & F3 & F4 & F5); [by apply core_fail_res|cbn; congruence|done|].
      split; [done|]. right. unfold rest. rewrite F1. cbn [a_st with_res with_st]. split.
      + exists t. rewrite F2. cbn. congruence.
      + intros _. eexists. by rewrite F3.
    - split; [done|]. right. unfold rest. rewrite E1. split; [exists t; congruence|].
      rewrite E4. intros ->. destruct Hp as [e He]; [done|]. exists e. congruence.
    - split; [done|]. right. unfold rest. rewrite E1. split; [exists t; congruence|].
      rewrite E4. intros ->. destruct Hp as [e He]; [done|]. exists e. congruence. }
  by destruct (a_st a).
Qed.

Lemma fail_inv a s e : core a -> has_tk a ->
  match s with
  | AGetFailed | AFailed | ACommitFailed | AGetError | ACommitError | AException
  | AFinishFailed | ARollbackFailed => True
  | _ => False
  end -> inv (fail a s e).
Proof.
  intros HC [t Ht] Hs. unfold fail, do_result. cbn.
  assert (HC1 : core (with_res (with_st a s) (Some (Fail e)))) by (by apply core_fail_res).
  assert (Hroll : forall p, can_roll s = true -> inv (do_rollback (with_res (with_st a s) (Some (Fail e))) p)).
  { intros p Hc. apply do_rollback_inv; [done|by exists t|done|]. intros _. by exists e. }
  assert (Hrep : (s = AFinishFailed \/ s = ARollbackFailed) ->
    inv (report (with_res (with_st a s) (Some (Fail e))))).
  { intros Hs'. destruct (report_failed (with_res (with_st a s) (Some (Fail e))) t e)
      as (F0 & F1 & F2 & F3 & F4 & F5); [done..|].
    split; [done|]. right. unfold rest. rewrite F1. cbn [a_st with_res with_st].
    destruct Hs' as [-> | ->].
    - split; [exists t; rewrite F2; done|]. eexists. by rewrite F3.
    - split; [exists t; rewrite F2; done|]. intros _. eexists. by rewrite F3. }
  destruct s; try done; auto.
Qed.

Lemma do_finish_inv a r : core a -> has_tk a ->
  (a_st a = ACommitSent \/ a_st a = AFinishFailed \/ a_st a = AFinishSent \/ a_st a = ARollbackComplete) ->
  a_res a = Some r -> (forall u, r = Done u -> cdone a u) -> inv (do_finish a).
Proof.
  intros HC [t Ht] Hs Hr Hd. unfold do_finish. rewrite Ht.
  assert (HC1 : core (with_st a AFinishSent)) by (by apply (core_same a)).
  destruct (ask (with_st a AFinishSent) (QaFinish t)) as [a1 c] eqn:E.
  eapply (core_ask _ _ _ _ HC1) in E as (HC2 & E1 & E2 & E3 & E4 & E5 & E6); try done.
  2:{ intros t' [= <-]. exact Ht. }
  cbn in *.
  assert (Hmain : inv (match c with Refuse => fail a1 AFinishFailed XUnreachable | _ => a1 end)).
  { assert (Hrest : (exists o, a_tr a1 = Out o :: a_tr a) -> inv a1).
    { intros [o Eo]. split; [done|]. right. unfold rest. rewrite E1. split; [exists t; congruence|].
      exists r. split; [congruence|]. intros u ->.
      destruct (Hd u eq_refl) as (t' & c' & t'' & u' & F1 & F2 & F3).
      exists t', c', t'', u'. rewrite E2, Eo. split; [done|]. split; [by apply asked_cons|by apply commit_ok_cons]. }
    destruct c; [|by apply Hrest; eexists..].
    apply fail_inv; [done|exists t; congruence|done]. }
  by destruct Hs as [-> |[-> |[-> | ->]]].
Qed.

Lemma do_commit_inv a u : core a -> has_tk a ->
  (a_st a = AStarted \/ a_st a = ACommitSent) -> a_res a = Some (Done u) -> inv (do_commit ro a).
Proof.
  intros HC [t Ht] Hs Hr. unfold do_commit. rewrite Ht, Hr.
  assert (HC1 : core (with_st a ACommitSent)) by (by apply (core_same a)).
  destruct (ask (with_st a ACommitSent) (QaCommit t (payload u))) as [a1 c] eqn:E.
  eapply (core_ask _ _ _ _ HC1) in E as (HC2 & E1 & E2 & E3 & E4 & E5 & E6).
  2:{ intros t' [= <-]. exact Ht. }
  2:{ intros t' u' [= <- <-]. by exists u. }
  2:{ intros ->. done. }
  2:{ done. }
  cbn in *.
  assert (Hmain : inv (match c with Refuse => fail a1 ACommitFailed XUnreachable | _ => a1 end)).
  { destruct c.
    - apply fail_inv; [done|exists t; congruence|done].
    - split; [done|]. right. unfold rest. rewrite E1. exists t, u, (a_next a).
      split; [congruence|]. split; [congruence|]. rewrite E6. apply elem_of_list_here.
    - split; [done|]. right. unfold rest. rewrite E1. exists t, u, (a_next a).
      split; [congruence|]. split; [congruence|]. rewrite E6. apply elem_of_list_here. }
  by destruct Hs as [-> | ->].
Qed.

Lemma do_runner_inv a v : core a -> has_tk a -> a_st a = AStarted -> inv (do_runner a v).
Proof.
  intros HC [t Ht] Hs. unfold do_runner. rewrite Ht.
  destruct (ask a (QaRun v)) as [a1 c] eqn:E.
  eapply (core_ask _ _ _ _ HC) in E as (HC2 & E1 & E2 & E3 & E4 & E5 & E6); try done.
  2:{ congruence. }
  destruct c.
  - apply fail_inv; [done|exists t; congruence|done].
  - split; [done|]. right. unfold rest. rewrite E1, Hs. exists t. congruence.
  - split; [done|]. right. unfold rest. rewrite E1, Hs. exists t. congruence.
Qed.

Lemma lock_cb_inv a w r : core a -> has_tk a -> a_st a = AStarted -> inv (lock_cb a w r).
Proof.
  intros HC Ht Hs.
  assert (Hi : inv a).
  { split; [done|]. right. unfold rest. by rewrite Hs. }
  unfold lock_cb. destruct w as [c|run].
  - destruct (a_cnt a !! c) as [[[n size] v]|]; [|done].
    assert (HC1 : core (with_cnt a (<[c:=(n + 1, size, v)]> (a_cnt a)) (a_try a)))
      by (by apply (core_same a)).
    destruct (n + 1 =? size); [by apply do_runner_inv|].
    split; [done|]. right. unfold rest. cbn. by rewrite Hs.
  - split; [by apply core_emit|]. right. unfold rest. cbn. by rewrite Hs.
Qed.

Lemma handle_lock_inv a w r : inv a -> a_dead a = false -> inv (handle_lock a w r).
Proof.
  intros [HC HR] Hd. unfold handle_lock. destruct (a_st a) eqn:Hs; try done.
  destruct HR as [?|HR]; [congruence|]. unfold rest in HR. rewrite Hs in HR.
  apply lock_cb_inv; destruct (is_wounded r); try done. by apply (core_same a).
Qed.

Lemma take_lock_inv a w k m : inv a -> a_dead a = false -> a_st a = AStarted ->
  inv (take_lock ro a w k m).1 /\
  ((take_lock ro a w k m).2 = false ->
     core (take_lock ro a w k m).1 /\ has_tk (take_lock ro a w k m).1 /\
     a_st (take_lock ro a w k m).1 = AStarted /\ a_dead (take_lock ro a w k m).1 = false).
Proof.
  intros [HC HR] Hd Hs. destruct HR as [?|HR]; [congruence|].
  pose proof HR as HR'. unfold rest in HR. rewrite Hs in HR. destruct HR as [t Ht].
  unfold take_lock. rewrite Ht, Hs.
  destruct (ro && bool_decide (m = Write)) eqn:Ew.
  { cbn. split; [split; [done|by right]|]. intros _. split_and!; try done. by exists t. }
  destruct (a_wound a) eqn:Hw.
  { cbn. split; [|done]. apply handle_lock_inv; [|done]. split; [done|by right]. }
  set (a1 := match a_locks a !! k with Some Write => a | _ => with_locks a (<[k:=m]> (a_locks a)) end).
  assert (HC1 : core a1 /\ a_st a1 = AStarted /\ a_tk a1 = Some t /\ a_dead a1 = false).
  { unfold a1. destruct (a_locks a !! k) as [[]|]; split_and!; try done; by apply (core_same a). }
  destruct HC1 as (HC1 & F1 & F2 & F3).
  destruct (ask a1 (QaLock w t k (if ro then Read else m))) as [a2 c] eqn:E.
  eapply (core_ask _ _ _ _ HC1) in E as (HC2 & E1 & E2 & E3 & E4 & E5 & E6).
  2:{ intros t' [= <-]. exact F2. }
  2:{ done. }
  2:{ by intros ->. }
  2:{ done. }
  assert (Hi : inv a2).
  { split; [done|]. right. unfold rest. rewrite E1, F1. exists t. congruence. }
  destruct c; cbn.
  - split; [done|]. intros _. split_and!; try done; [exists t; congruence|congruence|congruence].
  - done.
  - split; [|done]. apply handle_lock_inv; [|cbn; congruence].
    destruct Hi as [Hi1 Hi2]. split.
    { apply core_emit; [done..|]. intros id r' [= <- <-]. exists (QaLock w t k (if ro then Read else m)). apply (c_made _ HC2). rewrite E6. apply elem_of_list_here. }
    right. unfold rest. cbn. rewrite E1, F1. exists t. cbn. congruence.
Qed.

(** While locks are taken back the agent may already have moved on: the last of them
    starts the run, which may be refused. *)
Lemma take_lock_other a w k m : a_st a <> AStarted -> has_tk a ->
  take_lock ro a w k m = (a, false).
Proof.
  intros Hs [t Ht]. unfold take_lock. rewrite Ht. by destruct (a_st a).
Qed.

Lemma reacquire_inv l : forall a c, inv a -> has_tk a -> a_dead a = false -> inv (reacquire ro a c l).
Proof.
  induction l as [|[k m] l IH]; intros a c Hi Ht Hd; [done|]. cbn [reacquire].
  destruct (decide (a_st a = AStarted)) as [Hs|Hs].
  - pose proof (take_lock_inv a (Reacq c) k m Hi Hd Hs) as [H1 H2].
    pose proof (take_lock_tk a (Reacq c) k m) as H3.
    destruct (take_lock ro a (Reacq c) k m) as [a1 ok]. cbn [fst snd] in *.
    assert (Ht1 : has_tk a1) by (destruct Ht as [t Ht]; exists t; congruence).
    destruct (a_dead a1) eqn:Hd1; [done|]. destruct ok; [by apply IH|].
    apply fail_inv; [apply H1|done|done].
  - rewrite (take_lock_other _ _ _ _ Hs Ht), Hd. apply fail_inv; [apply Hi|done|done].
Qed.

Lemma handle_function_inv a r : core a -> has_tk a -> a_st a = AGetSent -> a_dead a = false ->
  inv (handle_function ro a r).
Proof.
  intros HC Ht Hs Hd. unfold handle_function. rewrite Hs.
  assert (Hi : inv a) by (split; [done|right; unfold rest; by rewrite Hs]).
  destruct r as [|n|v|e|[e d]]; try done.
  - assert (HC1 : core (with_locks (with_st a AStarted) ∅)) by (by apply (core_same a)).
    destruct (map_to_list (a_locks a)) as [|x l]; [by apply do_runner_inv|].
    apply reacquire_inv; [|done|done]. split; [by apply (core_same a)|]. right. done.
  - by apply fail_inv.
  - destruct e; by apply fail_inv.
Qed.

Lemma do_start_inv a : core a -> has_tk a -> a_dead a = false ->
  (a_st a = ABeginSent \/ a_st a = ARollbackComplete) -> inv (do_start fn ilt ro a).
Proof.
  intros HC [t Ht] Hd Hs. unfold do_start. rewrite Ht.
  assert (HC1 : core (with_st a AGetSent)) by (by apply (core_same a)).
  assert (Hmain : inv (
    if ro && (length fn =? 0)%nat then handle_function ro (with_st a AGetSent) (RValue [])
    else if (length fn =? 1)%nat then handle_function ro (with_st a AGetSent) (RValue fn)
    else
      let '(a2, c) := ask (with_st a AGetSent) (QaFunction t (if ro then Read else ilt)) in
      match c with Refuse => fail a2 AGetFailed XUnreachable | _ => a2 end)).
  { destruct (ro && (length fn =? 0)%nat); [apply handle_function_inv; try done; by exists t|].
    destruct (length fn =? 1)%nat; [apply handle_function_inv; try done; by exists t|].
    destruct (ask (with_st a AGetSent) _) as [a2 c] eqn:E.
    eapply (core_ask _ _ _ _ HC1) in E as (HC2 & E1 & E2 & E3 & E4 & E5 & E6).
    2:{ intros t' [= <-]. exact Ht. }
    2:{ done. }
    2:{ by intros ->. }
    2:{ done. }
    cbn [a_st a_tk a_res a_perm a_dead a_tr with_st with_res with_perm] in E1, E2, E3, E4, E5, E6. destruct c.
    - apply fail_inv; [done|exists t; congruence|done].
    - split; [done|]. right. unfold rest. rewrite E1. exists t. congruence.
    - split; [done|]. right. unfold rest. rewrite E1. exists t. congruence. }
  by destruct Hs as [-> | ->].
Qed.

(** ** The callbacks. [a] already records the call. *)

Lemma no_requests a : core a -> a_tk a = None ->
  forall o q t, Out (OReq o q) ∈ a_tr a -> names q <> Some t.
Proof. intros HC Ht o q t Ho Hn. pose proof (c_one _ HC _ _ _ Ho Hn). congruence. Qed.

Lemma core_with_tk a n : core a -> a_tk a = None -> assigned (a_tr a) n -> core (with_tk a n).
Proof.
  intros HC Ht Ha. pose proof (no_requests a HC Ht) as Hno. destruct HC as [H1 H2 H3 H4 H5 H8 H7 H6].
  split; cbn; try done.
  - by intros t [= <-].
  - intros o q t Ho Hn. by destruct (Hno o q t Ho).
Qed.

Lemma begin_failed_inv a e : core a -> a_tk a = None -> upkeep_failed (a_tr a) ->
  inv (fail a ABeginFailed e).
Proof.
  intros HC Ht Hu. unfold fail, do_result. cbn. unfold report. cbn. rewrite Ht.
  split; [|by left]. apply core_die.
  - by apply core_emit; [apply core_fail_res|..].
  - cbn. destruct Hu as (q & Hq & Hu). exists q. split; [done|].
    destruct Hu as [Hu|(id & e' & H1 & H2)].
    + left. by apply elem_of_list_further.
    + right. exists id, e'. split; [by apply asked_cons|by apply got_cons].
Qed.

Lemma handle_begin_inv a r id : inv a -> a_dead a = false -> asked (a_tr a) id QaBegin ->
  got (a_tr a) id r -> inv (handle_begin fn ilt ro a r).
Proof.
  intros Hi Hd Hid Hg. unfold handle_begin. destruct (a_st a) eqn:Hs; try done.
  destruct Hi as [HC [?|HR]]; [congruence|]. unfold rest in HR. rewrite Hs in HR.
  assert (Hi : inv a) by (split; [done|right; unfold rest; by rewrite Hs]).
  destruct r as [|n|v|e|e]; try done.
  - apply do_start_inv; [|by exists n|done|by left].
    apply core_with_tk; [done|done|]. by exists id.
  - apply begin_failed_inv; [done|done|]. exists QaBegin. split; [done|]. right. by exists id, e.
Qed.

Lemma handle_run_inv a r id v : inv a -> a_dead a = false -> asked (a_tr a) id (QaRun v) ->
  ended (a_tr a) id r -> inv (handle_run ro a r).
Proof.
  intros Hi Hd Hid He. unfold handle_run. destruct (a_st a) eqn:Hs; try done.
  destruct Hi as [HC [?|HR]]; [congruence|]. unfold rest in HR. rewrite Hs in HR.
  destruct r as [u| |].
  - apply (do_commit_inv _ u); [|done|by left|done].
    destruct HC as [H1 H2 H3 H4 H5 H8 H7 H6]. split; try done. cbn. intros u' [= <-]. by exists id, v.
  - by apply fail_inv.
  - by apply fail_inv.
Qed.

Lemma handle_commit_inv a r id t u : inv a -> a_dead a = false -> asked (a_tr a) id (QaCommit t u) ->
  got (a_tr a) id r -> inv (handle_commit a r).
Proof.
  intros Hi Hd Hid Hg. unfold handle_commit. destruct (a_st a) eqn:Hs; try done.
  destruct Hi as [HC [?|HR]]; [congruence|].
  assert (Hi : inv a) by (split; [done|by right]).
  unfold rest in HR. rewrite Hs in HR. destruct HR as (t0 & u0 & c0 & H1 & H2 & H3).
  assert (Ht : has_tk a) by (by exists t0).
  destruct r as [|n|v|e|[e d]]; try done.
  - apply (do_finish_inv _ (Done u0)); try done; [by left|].
    intros u' [= <-]. exists t0, c0, t, u. split; [done|]. split; [done|]. by exists id.
  - destruct e; by apply fail_inv.
  - destruct e; by apply fail_inv.
Qed.

Lemma handle_finish_inv a r id t : inv a -> a_dead a = false -> asked (a_tr a) id (QaFinish t) ->
  got (a_tr a) id r -> inv (handle_finish a r).
Proof.
  intros Hi Hd Hid Hg. unfold handle_finish. destruct (a_st a) eqn:Hs; try done.
  destruct Hi as [HC [?|HR]]; [congruence|].
  assert (Hi : inv a) by (split; [done|by right]).
  unfold rest in HR. rewrite Hs in HR. destruct HR as ([t0 Ht] & r0 & Hr & Hu).
  destruct r as [|n|v|e|e]; try done.
  - unfold do_result. cbn. rewrite Hr, Ht. unfold report. cbn. rewrite Hr, Ht.
    assert (t0 = t) as ->.
    { pose proof (c_one _ HC _ _ t Hid eq_refl). congruence. }
    split; [|right; by exists t].
    apply core_emit; [by apply (core_same a)| |done|done]. cbn. destruct r0 as [u|e]; [|done].
    destruct (Hu u eq_refl) as (t1 & c & t' & u' & F1 & F2 & F3).
    exists t, c, t', u'. split; [congruence|]. split; [done|]. by exists id.
  - apply fail_inv; [done|by exists t0|done].
Qed.

Lemma handle_rollback_inv a r id t : inv a -> a_dead a = false -> asked (a_tr a) id (QaRollback t) ->
  got (a_tr a) id r -> inv (handle_rollback a r).
Proof.
  intros Hi Hd Hid Hg. unfold handle_rollback. destruct (a_st a) eqn:Hs; try done.
  destruct Hi as [HC [?|HR]]; [congruence|].
  assert (Hi : inv a) by (split; [done|by right]).
  unfold rest in HR. rewrite Hs in HR. destruct HR as ([t0 Ht] & Hp).
  destruct r as [|n|v|e|e]; try done.
  - change (a_perm (with_st a ARollbackComplete)) with (a_perm a).
    destruct (a_perm a).
    + destruct Hp as [e He]; [done|].
      apply (do_finish_inv _ (Fail e)); try done; [by apply (core_same a)|by exists t0|].
      right. right. by right.
    + unfold do_result. cbn. unfold report. cbn. rewrite Ht.
      split; [|right; by exists t0].
      apply core_emit; [|done|done|done]. by apply (core_same a).
  - apply fail_inv; [done|by exists t0|done].
Qed.

Lemma exec_inv a e' : inv a -> a_dead a = false -> a_tr a = In EvExec :: e' -> inv (exec fn ilt ro a).
Proof.
  intros Hi Hd He. destruct Hi as [HC [?|HR]]; [congruence|].
  assert (Hi : inv a) by (split; [done|by right]).
  unfold exec. unfold rest in HR.
  destruct (a_st a) eqn:Hs; try done.
  - assert (HC1 : core (with_st (with_res a None) ABeginSent)) by (by apply (core_same a)).
    destruct (ask _ QaBegin) as [a1 c] eqn:E.
    eapply (core_ask _ _ _ _ HC1) in E as (HC2 & E1 & E2 & E3 & E4 & E5 & E6); try done.
    cbn [a_st a_tk a_res a_perm a_dead a_tr with_st with_res with_perm] in E1, E2, E3, E4, E5, E6. destruct c.
    + apply begin_failed_inv; [done|congruence|]. exists QaBegin. split; [done|]. left. rewrite E6.
      apply elem_of_list_here.
    + split; [done|]. right. unfold rest. rewrite E1. congruence.
    + split; [done|]. right. unfold rest. rewrite E1. congruence.
  - assert (HC1 : core (with_st (with_res a None) ABeginSent)) by (by apply (core_same a)).
    destruct (ask _ QaBegin) as [a1 c] eqn:E.
    eapply (core_ask _ _ _ _ HC1) in E as (HC2 & E1 & E2 & E3 & E4 & E5 & E6); try done.
    cbn [a_st a_tk a_res a_perm a_dead a_tr with_st with_res with_perm] in E1, E2, E3, E4, E5, E6. destruct c.
    + apply begin_failed_inv; [done|congruence|]. exists QaBegin. split; [done|]. left. rewrite E6.
      apply elem_of_list_here.
    + split; [done|]. right. unfold rest. rewrite E1. congruence.
    + split; [done|]. right. unfold rest. rewrite E1. congruence.
  - (* get_sent: the assertion of do_rollback fails *)
    unfold do_rollback. rewrite Hs. split; [|by left]. apply core_die; [done|]. cbn. by exists e'.
  - apply do_rollback_inv; try done. by rewrite Hs.
  - destruct HR as (t & u & c & H1 & H2 & H3). apply (do_commit_inv _ u); try done; [by exists t|by right].
  - destruct HR as (Ht & r & Hr & Hu). apply (do_finish_inv _ r); try done. right. right. by left.
  - destruct HR as (Ht & e & He'). apply (do_finish_inv _ (Fail e)); try done. right. by left.
  - destruct HR as [Ht Hp]. apply do_rollback_inv; try done. by rewrite Hs.
  - destruct HR as [Ht Hp]. apply do_rollback_inv; try done. by rewrite Hs.
  - apply do_start_inv; try done; [by apply (core_same a)|by right].
Qed.

Lemma step_inv a p : inv a -> inv (astep fn ilt ro a p).
Proof.
  intros Hi. unfold astep. destruct (a_dead a) eqn:Hd; [done|].
  destruct (fits a p.1) eqn:Hf; [|done]. destruct p as [e ch]. cbn [fst snd] in *.
  set (b := emit (with_ch a ch) (In e)).
  assert (Hb : inv b).
  { destruct Hi as [HC [?|HR]]; [congruence|]. split.
    - apply core_emit; [by apply (core_same a)|done|done|].
      intros id r He. injection He as ->. cbn in Hf |- *. by destruct (a_made a !! id).
    - right. unfold rest in *. cbn. destruct (a_st a); try done.
      + destruct HR as (t & u & c & H1 & H2 & H3). exists t, u, c. split_and!; try done. by apply asked_cons.
      + destruct HR as (H0 & r & Hr & Hu). split; [done|]. exists r. split; [done|].
        intros u E. destruct (Hu u E) as (t & c & t' & u' & F1 & F2 & F3).
        exists t, c, t', u'. split; [done|]. split; [by apply asked_cons|by apply commit_ok_cons]. }
  assert (Hdb : a_dead b = false) by done.
  assert (Hask : forall id q, a_made a !! id = Some q -> asked (a_tr b) id q).
  { intros id q Hq. apply asked_cons. by apply (c_made _ (proj1 Hi)). }
  destruct e as [|id r|id r|run k m]; cbn [dispatch].
  - by eapply exec_inv.
  - assert (Hg : got (a_tr b) id r) by apply elem_of_list_here.
    change (a_made b) with (a_made a). cbn in Hf.
    destruct (a_made a !! id) as [[]|] eqn:Em; try done.
    + by eapply handle_begin_inv; [| |apply Hask|].
    + destruct (decide (a_st b = AGetSent)) as [Hs|Hs].
      * apply handle_function_inv; try done; [apply Hb|]. destruct Hb as [_ [?|HR]]; [congruence|].
        unfold rest in HR. by rewrite Hs in HR.
      * unfold handle_function. by destruct (a_st b).
    + by apply handle_lock_inv.
    + by eapply handle_commit_inv; [| |apply Hask|].
    + by eapply handle_rollback_inv; [| |apply Hask|].
    + by eapply handle_finish_inv; [| |apply Hask|].
  - cbn in Hf. destruct (a_made a !! id) as [[]|] eqn:Em; try done.
    eapply handle_run_inv; [done|done|by apply Hask|apply elem_of_list_here].
  - destruct (decide (a_st b = AStarted)) as [Hs|Hs].
    + by apply take_lock_inv.
    + unfold take_lock. destruct (a_tk b) eqn:Et; [by destruct (a_st b)|].
      cbn in Hf. destruct (a_made a !! run) as [q|] eqn:Em; [|done].
      destruct q; try done. apply (c_made _ (proj1 Hi)) in Em.
      by destruct (c_run _ (proj1 Hi) _ _ Em).
Qed.

Lemma init_inv : inv agent0.
Proof.
  split; [|by right]. split; cbn; try done.
  - intros id q. split; [done|]. intros H. by apply elem_of_nil in H.
  - intros o q t H. by apply elem_of_nil in H.
  - intros id r H. by apply elem_of_nil in H.
  - intros o v H. by apply elem_of_nil in H.
Qed.

Lemma run_inv l : inv (arun fn ilt ro l).
Proof.
  unfold arun. assert (H : forall a, inv a -> inv (foldl (astep fn ilt ro) a l)).
  { induction l as [|p l IH]; intros a Hi; [done|]. apply IH, step_inv, Hi. }
  apply H, init_inv.
Qed.

End Agent.
