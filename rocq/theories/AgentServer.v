(** Proofs about an agent owned by its server, when the broker and the runner answer
    each request at most once. *)
From stdpp Require Import base option list gmap fin_maps.
From Coq Require Import NArith Lia.
From Verif Require Import Base ParsecShardModel BrokerModel AgentModel AgentSpec AgentProofs.
Open Scope N_scope.

Section Server.
Context (fn : bytes) (ilt : lock_type) (ro : bool).
Notation payload u := (if ro then ∅ else u : updates).

(** ** Pending requests *)

Definition driving (q : areq) : bool := match q with QaLock _ _ _ _ => false | _ => true end.
Definition drv (tr : list item) : list (N * areq) :=
  filter (fun p : N * areq => driving p.2 = true) (pending tr).
Definition of_count (c : N) (q : areq) : bool :=
  match q with QaLock (Reacq c') _ _ _ => c' =? c | _ => false end.
Definition pend (c : N) (tr : list item) : nat :=
  length (filter (fun p : N * areq => of_count c p.2 = true) (pending tr)).

Lemma pending_asked tr id q : (id, q) ∈ pending tr -> asked tr id q.
Proof.
  induction tr as [|i tr IH]; cbn; [by intros ?%elem_of_nil|].
  assert (Hrec : (id, q) ∈ pending tr -> asked (i :: tr) id q).
  { intros H. apply asked_cons. auto. }
  destruct i as [[]|[[|] ? | | |]]; auto.
  - intros H. apply elem_of_list_filter in H as [_ H]. auto.
  - intros H. apply elem_of_list_filter in H as [_ H]. auto.
  - intros H. apply elem_of_cons in H as [H|H]; [|auto]. injection H as -> ->. apply elem_of_list_here.
Qed.

Lemma asked_pending tr id q : asked tr id q -> id ∉ answers tr -> (id, q) ∈ pending tr.
Proof.
  induction tr as [|i tr IH]; cbn; [by intros ?%elem_of_nil|].
  intros H. apply elem_of_cons in H as [<- |H].
  - intros _. apply elem_of_list_here.
  - specialize (IH H). destruct i as [[]|[[|] ? | | |]]; cbn; auto.
    + rewrite not_elem_of_cons. intros [Hne Hn]. apply elem_of_list_filter. by auto.
    + rewrite not_elem_of_cons. intros [Hne Hn]. apply elem_of_list_filter. by auto.
    + intros Hn. apply elem_of_list_further. auto.
Qed.

Lemma NoDup_fst_unique (l : list (N * areq)) id q q' :
  base.NoDup l.*1 -> (id, q) ∈ l -> (id, q') ∈ l -> q = q'.
Proof.
  induction l as [|[i x] l IH]; cbn; [by intros _ ?%elem_of_nil|].
  intros [Hn Hd]%NoDup_cons. rewrite !elem_of_cons.
  assert (forall y, (i, y) ∈ l -> False).
  { intros y Hy. apply Hn. apply elem_of_list_fmap. by exists (i, y). }
  intros [H1|H1] [H2|H2]; simplify_eq; eauto; exfalso; eauto.
Qed.

Lemma NoDup_fst_filter (P : N * areq -> Prop) `{forall x, Decision (P x)} (l : list (N * areq)) :
  base.NoDup l.*1 -> base.NoDup (filter P l).*1.
Proof.
  induction l as [|x l IH]; [done|]. rewrite fmap_cons. intros [Hn Hd]%NoDup_cons.
  rewrite filter_cons. destruct (decide (P x)); [|auto]. rewrite fmap_cons. apply NoDup_cons. split; [|auto].
  intros Hx. apply Hn. apply elem_of_list_fmap in Hx as (y & -> & Hy).
  apply elem_of_list_filter in Hy as [_ Hy]. apply elem_of_list_fmap. by exists y.
Qed.

(** Answering a request takes exactly it away. *)
Lemma remove_drv (l : list (N * areq)) (P : N * areq -> bool) id :
  filter (fun p : N * areq => P p = true) (filter (fun p : N * areq => p.1 <> id) l) =
  filter (fun p : N * areq => p.1 <> id) (filter (fun p : N * areq => P p = true) l).
Proof.
  induction l as [|x l IH]; [done|]. rewrite !filter_cons.
  repeat (case_decide || rewrite filter_cons); try done; by rewrite IH.
Qed.

Lemma remove_absent (l : list (N * areq)) id :
  (forall q, (id, q) ∉ l) -> filter (fun p : N * areq => p.1 <> id) l = l.
Proof.
  induction l as [|[i x] l IH]; [done|]. intros H. rewrite filter_cons, decide_True.
  - rewrite IH; [done|]. intros q Hq. apply (H q). by apply elem_of_list_further.
  - cbn. intros ->. apply (H x). apply elem_of_list_here.
Qed.

Lemma remove_one (l : list (N * areq)) id q :
  base.NoDup l.*1 -> (id, q) ∈ l ->
  length l = S (length (filter (fun p : N * areq => p.1 <> id) l)).
Proof.
  induction l as [|[i x] l IH]; [by intros _ ?%elem_of_nil|]. cbn [fmap list_fmap fst].
  intros [Hn Hd]%NoDup_cons Hin. rewrite filter_cons. case_decide as Hi; cbn in Hi.
  - apply elem_of_cons in Hin as [E|Hin]; [congruence|]. cbn. f_equal. by apply IH.
  - assert (i = id) as -> by (destruct (decide (i = id)); tauto).
    cbn. f_equal. rewrite remove_absent; [done|].
    intros q' Hq. apply Hn. apply elem_of_list_fmap. by exists (id, q').
Qed.

(** ** What holds between two calls *)

(** What must hold of each thing that happens. *)
Definition fine2 (i : item) (e : list item) : Prop :=
  match i with
  | Out (OReq _ q) =>
      (committed e -> is_finish q) /\
      (forall t u, q = QaCommit t u -> exists u0, fresh_run e u0 /\ u = payload u0)
  | Out (OReport r) =>
      (forall u, r = Done u -> exists t, commit_ok e t (payload u) /\ finish_ok e t) /\
      (committed e -> (exists u, r = Done u) \/ r = Fail XFinish \/ r = Fail XUnreachable) /\
      (r = Fail XRetrieval \/ r = Fail XExecution \/ r = Fail XCommit -> undone e)
  | Out (ODie d) =>
      match d with
      | NoTicket | Unfinished => upkeep_failed e
      | Freed => exists r, Out (OReport r) ∈ e /\ is_retry r = false
      | _ => False
      end
  | _ => True
  end.

Fixpoint good2 (tr : list item) : Prop :=
  match tr with
  | [] => True
  | i :: e => fine2 i e /\ good2 e
  end.

Lemma good2_past tr i e : good2 tr -> past tr i e -> fine2 i e.
Proof.
  intros Hg [l ->]. induction l as [|x l IH]; cbn in Hg; [apply Hg|apply IH, Hg].
Qed.

(** Counters of locks being taken back: the ones of earlier attempts never reach their
    end again. *)
Definition young (a : agent) : Prop := forall c, a_try a <= c -> pend c (a_tr a) = 0%nat.
Definition settled (a : agent) : Prop := young a /\
  forall c n size v, a_cnt a !! c = Some (n, size, v) -> c < a_try a /\
    (n + N.of_nat (pend c (a_tr a)) < size \/ (n = size /\ pend c (a_tr a) = 0%nat)).
Definition settled_but (a : agent) (c0 : N) : Prop := young a /\
  forall c n size v, a_cnt a !! c = Some (n, size, v) -> c <> c0 -> c < a_try a /\
    (n + N.of_nat (pend c (a_tr a)) < size \/ (n = size /\ pend c (a_tr a) = 0%nat)).

Definition running (tr : list item) (id : N) : Prop :=
  exists l v e, tr = l ++ Out (OReq (Some id) (QaRun v)) :: e /\ only no_rollback l.
Definition rolling (tr : list item) (id : N) : Prop :=
  exists l t e, tr = l ++ Out (OReq (Some id) (QaRollback t)) :: e /\ only is_finish l.

(** The state and what is pending. *)
Definition shape (a : agent) : Prop :=
  match a_st a with
  | AInit | AFinishComplete | AFinishFailed | ARollbackFailed | ARollbackComplete =>
      drv (a_tr a) = [] /\ settled a
  | ABeginSent => (exists id, drv (a_tr a) = [(id, QaBegin)]) /\ settled a
  | AGetSent => (exists id t m, drv (a_tr a) = [(id, QaFunction t m)]) /\ settled a
  | AStarted =>
      (exists id v, drv (a_tr a) = [(id, QaRun v)] /\ running (a_tr a) id /\ settled a) \/
      (drv (a_tr a) = [] /\ exists c n size v, a_try a = c + 1 /\ a_cnt a !! c = Some (n, size, v) /\
         n + N.of_nat (pend c (a_tr a)) = size /\ n < size /\ settled_but a c)
  | ACommitSent =>
      (exists id t u, drv (a_tr a) = [(id, QaCommit t (payload u))] /\ a_res a = Some (Done u)) /\
      settled a
  | ARollbackSent =>
      (exists id t, drv (a_tr a) = [(id, QaRollback t)] /\ rolling (a_tr a) id) /\ settled a /\
      a_res a <> Some (Fail XRetry)
  | AFinishSent =>
      (exists id t, drv (a_tr a) = [(id, QaFinish t)]) /\ settled a /\
      exists r, a_res a = Some r /\
        (forall u, r = Done u -> exists t, commit_ok (a_tr a) t (payload u)) /\
        (forall e, r = Fail e -> ~ committed (a_tr a) /\ undone (a_tr a) /\ e <> XRetry)
  | _ => False
  end.

Definition finishing (s : ast) : bool :=
  match s with AFinishSent | AFinishFailed | AFinishComplete => true | _ => false end.
Definition final (s : ast) : bool :=
  match s with AFinishFailed | AFinishComplete | ARollbackFailed => true | _ => false end.

Definition counts (k : nat) (a : agent) : Prop :=
  retries a = (k + (if bool_decide (a_st a = ARollbackComplete) then 1 else 0))%nat /\
  length (told a) = (if final (a_st a) then 1 else 0)%nat.

(** Failures to finish or to roll back are recorded. *)
Definition stuck_ok (a : agent) : Prop :=
  (a_st a = AFinishFailed \/ a_st a = ARollbackFailed) -> upkeep_failed (a_tr a).

Record alive (k : nat) (a : agent) : Prop := {
  l_dead : a_dead a = false;
  l_good : good2 (a_tr a);
  l_uniq : base.NoDup (pending (a_tr a)).*1;
  l_shape : shape a;
  l_comm : committed (a_tr a) -> finishing (a_st a) = true;
  l_counts : counts k a;
  l_stuck : stuck_ok a
}.

Definition over (a : agent) : Prop :=
  a_dead a = true /\ good2 (a_tr a) /\ (length (told a) <= 1)%nat.

Definition lives (k : nat) (a : agent) : Prop := alive k a \/ over a.

(** Between a call and what the agent does next: nothing is pending but locks. *)
Record idle (k : nat) (a : agent) : Prop := {
  i_core : core ro a;
  i_dead : a_dead a = false;
  i_good : good2 (a_tr a);
  i_uniq : base.NoDup (pending (a_tr a)).*1;
  i_drv : drv (a_tr a) = [];
  i_set : settled a;
  i_told : told a = [];
  i_retr : retries a = k
}.

(** ** The elementary operations *)

Lemma fresh_id a q : core ro a -> (a_next a, q) ∉ pending (a_tr a).
Proof.
  intros HC H. apply pending_asked in H. apply (c_made _ _ HC) in H. apply (c_next _ _ HC) in H. lia.
Qed.

Lemma only_nil (P : areq -> Prop) : only P [].
Proof. intros o q H. by apply elem_of_nil in H. Qed.

Lemma only_cons (P : areq -> Prop) i l : (forall o q, i = Out (OReq o q) -> P q) -> only P l -> only P (i :: l).
Proof.
  intros H1 H2 o q H. apply elem_of_cons in H as [H|H]; [by eapply H1|by eapply H2].
Qed.

Lemma committed_cons i tr : committed tr -> committed (i :: tr).
Proof. intros (t & u & H). exists t, u. by apply commit_ok_cons. Qed.

Lemma undone_cons i tr : (forall o q, i = Out (OReq o q) -> is_finish q) -> undone tr -> undone (i :: tr).
Proof.
  intros Hi (l & id & t & e & -> & Hg & Ho). exists (i :: l), id, t, e.
  split; [done|]. split; [by apply elem_of_list_further|]. by apply only_cons.
Qed.

Lemma upkeep_cons i tr : upkeep_failed tr -> upkeep_failed (i :: tr).
Proof.
  intros (q & Hq & H). exists q. split; [done|]. destruct H as [H|(id & e & H1 & H2)].
  - left. by apply elem_of_list_further.
  - right. exists id, e. split; [by apply asked_cons|by apply got_cons].
Qed.

(** New answers make a commit succeed only if they say so. *)
Lemma committed_cons_inv a i : core ro a -> committed (i :: a_tr a) ->
  committed (a_tr a) \/ (exists id t u, i = In (EvAnswer id ROk) /\ asked (a_tr a) id (QaCommit t u)) \/
  (exists id t u, i = Out (OReq (Some id) (QaCommit t u)) /\ got (a_tr a) id ROk).
Proof.
  intros HC (t & u & c & H1 & H2). apply elem_of_cons in H1 as [<- |H1]; apply elem_of_cons in H2 as [H2|H2].
  - discriminate H2.
  - right. right. by exists c, t, u.
  - right. left. by exists c, t, u.
  - left. exists t, u, c. done.
Qed.


Lemma idle_same k a b : idle k a -> core ro b ->
  a_tr b = a_tr a -> a_dead b = a_dead a -> a_cnt b = a_cnt a -> a_try b = a_try a -> idle k b.
Proof.
  intros [H1 H2 H3 H4 H5 H6 H7 H8] HC Ht Hd Hc Hy.
  split; unfold told, retries, settled, young in *; rewrite ?Ht, ?Hd, ?Hc, ?Hy; done.
Qed.

Lemma drv_sent id q tr : driving q = true -> drv (Out (OReq (Some id) q) :: tr) = (id, q) :: drv tr.
Proof. intros H. unfold drv. cbn [pending]. by rewrite filter_cons_True by done. Qed.
Lemma drv_lock id q tr : driving q = false -> drv (Out (OReq (Some id) q) :: tr) = drv tr.
Proof. intros H. unfold drv. cbn [pending]. rewrite filter_cons_False by (cbn; congruence). done. Qed.
Lemma pend_other c id q tr : of_count c q = false -> pend c (Out (OReq (Some id) q) :: tr) = pend c tr.
Proof. intros H. unfold pend. cbn [pending]. rewrite filter_cons_False by (cbn; congruence). done. Qed.
Lemma pend_lock c id q tr : of_count c q = true -> pend c (Out (OReq (Some id) q) :: tr) = S (pend c tr).
Proof. intros H. unfold pend. cbn [pending]. by rewrite filter_cons_True by done. Qed.

Lemma driving_count c q : driving q = true -> of_count c q = false.
Proof. by destruct q. Qed.

(** A request other than for a lock, made by an idle agent. *)
Lemma idle_ask k a q a1 c : idle k a -> ask a q = (a1, c) -> driving q = true ->
  (forall t, names q = Some t -> a_tk a = Some t) ->
  (forall t u, q = QaCommit t u -> exists u0, a_res a = Some (Done u0) /\ u = payload u0) ->
  (ro = true -> writes_nothing q) -> (forall v, q = QaRun v -> a_tk a <> None) ->
  (committed (a_tr a) -> is_finish q) ->
  (forall t u, q = QaCommit t u -> exists u0, fresh_run (a_tr a) u0 /\ u = payload u0) ->
  a_st a1 = a_st a /\ a_tk a1 = a_tk a /\ a_res a1 = a_res a /\ a_perm a1 = a_perm a /\
  match c with
  | Refuse => idle k a1 /\ a_tr a1 = Out (OReq None q) :: a_tr a
  | _ => core ro a1 /\ a_dead a1 = false /\ good2 (a_tr a1) /\
         base.NoDup (pending (a_tr a1)).*1 /\ drv (a_tr a1) = [(a_next a, q)] /\ settled a1 /\
         told a1 = [] /\ retries a1 = k /\ a_tr a1 = Out (OReq (Some (a_next a)) q) :: a_tr a
  end.
Proof.
  intros HI E Hdr Hn Hc Hw Hrun Hfin Hfr.
  pose proof (fresh_id a) as Hfresh. destruct HI as [HC H2 H3 H4 H5 H6 H7 H8].
  assert (Hcnt : a_cnt a1 = a_cnt a /\ a_try a1 = a_try a).
  { unfold ask in E. destruct (match a_ch a with [] => Later | c :: _ => c end); by injection E as <- <-. }
  destruct Hcnt as [Hcnt Htry].
  eapply (core_ask _ _ _ _ _ HC) in E as (HC2 & E1 & E2 & E3 & E4 & E5 & E6); try done.
  split_and!; try done.
  assert (Hsent : forall o, fine2 (Out (OReq o q)) (a_tr a)) by done.
  assert (Hgo : a_tr a1 = Out (OReq (Some (a_next a)) q) :: a_tr a ->
    core ro a1 /\ a_dead a1 = false /\ good2 (a_tr a1) /\
         base.NoDup (pending (a_tr a1)).*1 /\ drv (a_tr a1) = [(a_next a, q)] /\ settled a1 /\
         told a1 = [] /\ retries a1 = k /\ a_tr a1 = Out (OReq (Some (a_next a)) q) :: a_tr a).
  { intros Et. split_and!; try done; try congruence; rewrite ?Et.
    - done.
    - cbn [pending fmap list_fmap fst]. apply NoDup_cons. split; [|done].
      intros Hin. apply elem_of_list_fmap in Hin as ([i x] & Hi & Hin). cbn in Hi. subst i.
      by destruct (Hfresh x HC).
    - by rewrite drv_sent, H5.
    - destruct H6 as [H6 H6']. split; [intros c0|intros c0 n size v]; rewrite ?Hcnt, Htry, Et;
        rewrite pend_other by (by apply driving_count); [apply H6|apply H6'].
    - unfold told. rewrite Et. exact H7.
    - unfold retries. rewrite Et. exact H8. }
  destruct c; [|by apply Hgo..].
  split; [|done]. split; try done; try congruence; rewrite ?E6.
  - done.
  - done.
  - done.
  - destruct H6 as [H6 H6']. split; [intros c0|intros c0 n size v]; rewrite ?Hcnt, Htry, E6; [apply H6|apply H6'].
  - unfold told. rewrite E6. exact H7.
  - unfold retries. rewrite E6. exact H8.
Qed.

Lemma not_committed_ask k a q o : idle k a -> ~ committed (a_tr a) ->
  (forall id, o = Some id -> id = a_next a) -> ~ committed (Out (OReq o q) :: a_tr a).
Proof.
  intros HI Hn Ho Hc. apply committed_cons_inv in Hc; [|apply HI].
  destruct Hc as [?|[(id & t & u & E & _)|(id & t & u & E & Hg)]]; [done|discriminate E|].
  injection E as -> ->. rewrite (Ho id eq_refl) in Hg.
  apply (c_ans _ _ (i_core _ _ HI)) in Hg as [x Hx]. apply (c_next _ _ (i_core _ _ HI)) in Hx. lia.
Qed.

Lemma not_committed_out tr o : (forall id q, o <> OReq id q) -> ~ committed tr -> ~ committed (Out o :: tr).
Proof.
  intros Ho Hn (t & u & c & H1 & H2). apply Hn. exists t, u, c.
  apply elem_of_cons in H1 as [H1|H1]; [by injection H1 as <-; destruct (Ho (Some c) (QaCommit t u))|].
  apply elem_of_cons in H2 as [H2|H2]; [discriminate H2|]. done.
Qed.

(** ** The agent's functions, from an idle agent *)

(** The end of do_result: the client is told. *)
Lemma told_failed a e : is_retry (Fail e) = false ->
  told (emit a (Out (OReport (Fail e)))) = Fail e :: told a /\
  retries (emit a (Out (OReport (Fail e)))) = retries a.
Proof. intros H. by destruct e. Qed.

Lemma rollback_lives k a p t : idle k a -> a_tk a = Some t -> can_roll (a_st a) = true ->
  ~ committed (a_tr a) -> a_res a <> Some (Fail XRetry) -> alive k (do_rollback a p).
Proof.
  intros HI Ht Hs Hnc Hre. unfold do_rollback. rewrite Ht.
  set (a0 := with_perm (with_st a ARollbackSent) p).
  assert (HI0 : idle k a0) by (apply (idle_same k a); try done; apply (core_same _ a); try done; apply HI).
  destruct (ask a0 (QaRollback t)) as [a1 c] eqn:E.
  eapply (idle_ask k a0) in E as (E1 & E2 & E3 & E4 & E5); try done.
  2:{ by intros t' [= <-]. }
  assert (Hmain : alive k (match c with
    | Refuse => report (with_res (with_st a1 ARollbackFailed) (Some (Fail XUnreachable)))
    | _ => a1 end)).
  { destruct c.
    - destruct E5 as [HI1 Et]. unfold report. cbn [a_res with_res]. cbn [a_tk with_res with_st].
      rewrite E2. cbn [a_tk a0 with_perm with_st]. rewrite Ht.
      assert (Hnc1 : ~ committed (a_tr a1)).
      { rewrite Et. by apply (not_committed_ask k a0). }
      destruct HI1 as [J1 J2 J3 J4 J5 J6 J7 J8].
      split; try done.
      + cbn. split; [|done]. split; [done|]. split; [by intros ?|]. intros [?|[?|?]]; discriminate.
      + cbn. intros Hc. exfalso. revert Hc. by apply not_committed_out.
      + split; cbn; [rewrite Nat.add_0_r; exact J8|]. change (length (Fail XUnreachable :: told a1) = 1%nat).
        by rewrite J7.
      + intros _. exists (QaRollback t). split; [done|]. left. cbn. rewrite Et. right. left.
    - destruct E5 as (J1 & J2 & J3 & J4 & J5 & J6 & J7 & J8 & Et).
      split; try done.
      + unfold shape. rewrite E1. cbn [a_st a0 with_perm with_st]. rewrite E3. split; [|done].
        exists (a_next a0), t. split; [done|]. exists [], t, (a_tr a0). split; [done|apply only_nil].
      + rewrite Et. intros Hc. exfalso. revert Hc. apply (not_committed_ask k a0); try done. by intros ? [= <-].
      + unfold counts. rewrite E1, J7, J8. split; [exact (eq_sym (Nat.add_0_r k))|done].
      + unfold stuck_ok. rewrite E1. unfold a0. cbn. by intros [?|?].
    - destruct E5 as (J1 & J2 & J3 & J4 & J5 & J6 & J7 & J8 & Et).
      split; try done.
      + unfold shape. rewrite E1. cbn [a_st a0 with_perm with_st]. rewrite E3. split; [|done].
        exists (a_next a0), t. split; [done|]. exists [], t, (a_tr a0). split; [done|apply only_nil].
      + rewrite Et. intros Hc. exfalso. revert Hc. apply (not_committed_ask k a0); try done. by intros ? [= <-].
      + unfold counts. rewrite E1, J7, J8. split; [exact (eq_sym (Nat.add_0_r k))|done].
      + unfold stuck_ok. rewrite E1. unfold a0. cbn. by intros [?|?]. }
  by destruct (a_st a).
Qed.

Lemma fail_lives k a s e t : idle k a -> a_tk a = Some t -> ~ committed (a_tr a) ->
  match s with
  | AGetFailed | AFailed | ACommitFailed | AGetError | ACommitError | AException => True
  | _ => False
  end -> e <> XRetry -> alive k (fail a s e).
Proof.
  intros HI Ht Hnc Hs He. unfold fail, do_result. cbn [a_res with_res a_st with_st].
  assert (H : forall p, can_roll s = true -> alive k (do_rollback (with_res (with_st a s) (Some (Fail e))) p)).
  { intros p Hr. apply (rollback_lives k _ p t); try done; [|cbn; congruence].
    apply (idle_same k a); try done. apply core_fail_res, HI. }
  destruct s; try done; auto.
Qed.

Lemma finish_lives k a t r : idle k a -> a_tk a = Some t ->
  (a_st a = ACommitSent \/ a_st a = ARollbackComplete) -> a_res a = Some r ->
  (forall u, r = Done u -> exists t, commit_ok (a_tr a) t (payload u)) ->
  (forall e, r = Fail e -> ~ committed (a_tr a) /\ undone (a_tr a) /\ e <> XRetry) ->
  alive k (do_finish a).
Proof.
  intros HI Ht Hs Hr Hd Hf. unfold do_finish. rewrite Ht.
  set (a0 := with_st a AFinishSent).
  assert (HI0 : idle k a0) by (apply (idle_same k a); try done; apply (core_same _ a); try done; apply HI).
  destruct (ask a0 (QaFinish t)) as [a1 c] eqn:E.
  eapply (idle_ask k a0) in E as (E1 & E2 & E3 & E4 & E5); try done.
  2:{ by intros t' [= <-]. }
  2:{ intros _. by exists t. }
  assert (Hsent : core ro a1 /\ a_dead a1 = false /\ good2 (a_tr a1) /\
         base.NoDup (pending (a_tr a1)).*1 /\ drv (a_tr a1) = [(a_next a0, QaFinish t)] /\ settled a1 /\
         told a1 = [] /\ retries a1 = k /\ a_tr a1 = Out (OReq (Some (a_next a0)) (QaFinish t)) :: a_tr a0 ->
     alive k a1).
  { intros (J1 & J2 & J3 & J4 & J5 & J6 & J7 & J8 & Et).
    split; try done.
    - unfold shape. rewrite E1. cbn [a_st a0 with_st]. split; [by eexists _, _|]. split; [done|].
      exists r. split; [rewrite E3; exact Hr|]. split.
      + intros u Hu. destruct (Hd u Hu) as [t' Ht']. exists t'. rewrite Et. by apply commit_ok_cons.
      + intros e He. destruct (Hf e He) as (F1 & F2 & F3). split_and!; [|rewrite Et|done].
        * rewrite Et. apply (not_committed_ask k a0); try done. by intros ? [= <-].
        * apply undone_cons; [|done]. intros o q [= <- <-]. by exists t.
    - intros _. by rewrite E1.
    - unfold counts. rewrite E1, J7, J8. split; [exact (eq_sym (Nat.add_0_r k))|done].
    - unfold stuck_ok. rewrite E1. unfold a0. cbn. by intros [?|?]. }
  assert (Hmain : alive k (match c with Refuse => fail a1 AFinishFailed XUnreachable | _ => a1 end)).
  { destruct c; [|by apply Hsent..].
    destruct E5 as [HI1 Et]. unfold fail, do_result, report. cbn [a_res with_res a_st with_st a_tk].
    rewrite E2. cbn [a_tk a0 with_st]. rewrite Ht.
    destruct HI1 as [J1 J2 J3 J4 J5 J6 J7 J8].
    split; try done.
    - cbn. split; [|done]. split; [done|]. split; [by auto|]. intros [?|[?|?]]; discriminate.
    - split; cbn; [rewrite Nat.add_0_r; exact J8|]. change (length (Fail XUnreachable :: told a1) = 1%nat).
      by rewrite J7.
    - intros _. exists (QaFinish t). split; [done|]. left. cbn. rewrite Et. right. left. }
  by destruct Hs as [-> | ->].
Qed.

Lemma commit_lives k a t u : idle k a -> a_tk a = Some t -> a_st a = AStarted ->
  a_res a = Some (Done u) -> fresh_run (a_tr a) u -> ~ committed (a_tr a) ->
  alive k (do_commit ro a).
Proof.
  intros HI Ht Hs Hr Hfr Hnc. unfold do_commit. rewrite Ht, Hr, Hs.
  set (a0 := with_st a ACommitSent).
  assert (HI0 : idle k a0) by (apply (idle_same k a); try done; apply (core_same _ a); try done; apply HI).
  destruct (ask a0 (QaCommit t (payload u))) as [a1 c] eqn:E.
  eapply (idle_ask k a0) in E as (E1 & E2 & E3 & E4 & E5); try done.
  2:{ by intros t' [= <-]. }
  2:{ intros t' u' [= <- <-]. by exists u. }
  2:{ by intros ->. }
  2:{ intros t' u' [= <- <-]. by exists u. }
  assert (Hsent : core ro a1 /\ a_dead a1 = false /\ good2 (a_tr a1) /\
         base.NoDup (pending (a_tr a1)).*1 /\ drv (a_tr a1) = [(a_next a0, QaCommit t (payload u))] /\ settled a1 /\
         told a1 = [] /\ retries a1 = k /\ a_tr a1 = Out (OReq (Some (a_next a0)) (QaCommit t (payload u))) :: a_tr a0 ->
     alive k a1).
  { intros (J1 & J2 & J3 & J4 & J5 & J6 & J7 & J8 & Et).
    split; try done.
    - unfold shape. rewrite E1. cbn [a_st a0 with_st]. split; [|done]. eexists _, _, _. split; [done|].
      rewrite E3. done.
    - rewrite Et. intros Hc. exfalso. revert Hc. apply (not_committed_ask k a0); try done. by intros ? [= <-].
    - unfold counts. rewrite E1, J7, J8. split; [exact (eq_sym (Nat.add_0_r k))|done].
    - unfold stuck_ok. rewrite E1. unfold a0. cbn. by intros [?|?]. }
  destruct c; [|by apply Hsent..].
  destruct E5 as [HI1 Et]. apply (fail_lives k _ _ _ t); try done.
  - rewrite E2. done.
  - rewrite Et. by apply (not_committed_ask k a0).
Qed.

Lemma runner_lives k a t v : idle k a -> a_tk a = Some t -> a_st a = AStarted ->
  ~ committed (a_tr a) -> alive k (do_runner a v).
Proof.
  intros HI Ht Hs Hnc. unfold do_runner. rewrite Ht.
  destruct (ask a (QaRun v)) as [a1 c] eqn:E.
  eapply (idle_ask k a) in E as (E1 & E2 & E3 & E4 & E5); try done.
  2:{ congruence. }
  assert (Hsent : core ro a1 /\ a_dead a1 = false /\ good2 (a_tr a1) /\
         base.NoDup (pending (a_tr a1)).*1 /\ drv (a_tr a1) = [(a_next a, QaRun v)] /\ settled a1 /\
         told a1 = [] /\ retries a1 = k /\ a_tr a1 = Out (OReq (Some (a_next a)) (QaRun v)) :: a_tr a ->
     alive k a1).
  { intros (J1 & J2 & J3 & J4 & J5 & J6 & J7 & J8 & Et).
    split; try done.
    - unfold shape. rewrite E1, Hs. left. exists (a_next a), v. split; [done|]. split; [|done].
      exists [], v, (a_tr a). split; [done|apply only_nil].
    - rewrite Et. intros Hc. exfalso. revert Hc. apply (not_committed_ask k a); try done. by intros ? [= <-].
    - unfold counts. rewrite E1, Hs, J7, J8. split; [exact (eq_sym (Nat.add_0_r k))|done].
    - unfold stuck_ok. rewrite E1, Hs. by intros [?|?]. }
  destruct c; [|by apply Hsent..].
  destruct E5 as [HI1 Et]. apply (fail_lives k _ _ _ t); try done.
  - rewrite E2. done.
  - rewrite Et. by apply (not_committed_ask k a).
Qed.

End Server.
