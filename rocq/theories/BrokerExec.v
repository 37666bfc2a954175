(** A shard executes a request: what every ticket sees of it. *)
From stdpp Require Import base option list gmap fin_maps fin_sets.
From Coq Require Import NArith Lia.
From Verif Require Import Base ParsecShardModel ParsecShardSpec ParsecShardProofs ParsecShardSteps ParsecShardRuns
  ParsecShardFinal BrokerModel BrokerSpec BrokerShard BrokerInv BrokerStage BrokerHandle BrokerNet.
Open Scope N_scope.

Definition locks_wait (wait : gmap N cont) : Prop :=
  forall rid c, wait !! rid = Some c -> exists cid tn k, c = KLock cid tn k.

Lemma answers_app w c e1 e2 : answers w c (e1 ++ e2) = answers w c e1 ++ answers w c e2.
Proof. apply omap_app. Qed.
Lemma answers_reply w c r : answers w (Some c) [EReply r] = [(c, PReply r)].
Proof. done. Qed.
Lemma locks_answers w c ev x : locks_wait w -> locks_only ev -> x ∈ answers w c ev -> ok x = None.
Proof.
  intros Hw Hl Hx. apply elem_of_list_omap in Hx as (e & He & Ex). apply Hl in He as (rid & a & ->).
  destruct (w !! rid) as [c'|] eqn:E; [|discriminate]. apply Hw in E as (cid & tn & k & ->).
  cbn in Ex. injection Ex as <-. done.
Qed.
Lemma locks_answers_in w c ev x : locks_wait w -> locks_only ev -> x ∈ answers w c ev ->
  exists cid tn k, x.1 = KLock cid tn k.
Proof.
  intros Hw Hl Hx. apply elem_of_list_omap in Hx as (e & He & Ex). apply Hl in He as (rid & a & ->).
  destruct (w !! rid) as [c'|] eqn:E; [|discriminate]. apply Hw in E as (cid & tn & k & ->).
  cbn in Ex. injection Ex as <-. cbn. eauto.
Qed.

Definition done_after (q : breq) (s : shard) (t : ticket_no) (dn : option updates) : option updates :=
  match q with
  | QCommit t' =>
      if decide (t' = t) then
        match s_tk s !! t with
        | Some x => if bool_decide (t_state x = Prepared) then Some (t_update x) else dn
        | None => dn
        end
      else dn
  | _ => dn
  end.

Lemma status_ready s t u : status_of s t = Ready u <-> exists x, s_tk s !! t = Some x /\ t_state x = Prepared /\ t_update x = u.
Proof.
  unfold status_of, tstatus. destruct (s_tk s !! t) as [x|]; [|split; [done|]; now intros (x & [=] & _)].
  split.
  - destruct (t_state x) eqn:E; try done. intros [= <-]. eauto.
  - intros (y & [= <-] & -> & ->). done.
Qed.

Lemma shard_exec self s rid q c s' ev wait t r Q dn shs as_ :
  inv s -> step s (to_op self rid q) = Done (s', ev) -> fits q c -> locks_wait wait ->
  exec (Cell (status_of s t) (reqs_of t ((q, c) :: r)) Q dn shs as_)
       (Cell (status_of s' t) (reqs_of t r) (Q ++ rsps_of t (answers wait (Some c) ev))
          (done_after q s t dn) shs as_).
Proof.
  intros Hi E Hf Hw.
  assert (Hreq : reqs_of t ((q, c) :: r) = (if bool_decide (breq_tn q = Some t) then [q] else []) ++ reqs_of t r).
  { unfold reqs_of. cbn. case_bool_decide; done. }
  destruct (decide (breq_tn q = Some t)) as [Ht|Ht].
  - rewrite bool_decide_eq_true_2 in Hreq by done. cbn [app] in Hreq.
    pose proof (fits_tn _ _ Hf) as Hc. rewrite Ht in Hc.
    assert (Hone : forall x, rsps_of t [(c, x)] = [(c, x)]).
    { intros x. unfold rsps_of. cbn. now rewrite bool_decide_eq_true_2. }
    assert (Hlk : forall lev x, locks_only lev -> x ∈ rsps_of t (answers wait (Some c) lev) -> ok x = None).
    { intros lev x Hl Hx. apply elem_rsps_of in Hx as [Hx _]. eapply locks_answers; eauto. }
    destruct Hf as [_ Hf].
    destruct q as [t0 k m f|t0 u|t0|t0|t0|]; cbn in Ht; try discriminate; injection Ht as ->; cbn [to_op step] in E.
    + destruct (lock_status _ _ _ _ _ _ _ _ _ Hi E) as (Hl & Hs1 & Hs2).
      eapply X_lock; [exact Hreq| |].
      * cbn. destruct (status_of s t) eqn:Est; [|left; rewrite <- Est; apply Hs1; right; congruence..].
        destruct (Hs2 eq_refl) as [->| ->]; auto.
      * intros x. now apply Hlk.
    + destruct c as [|cb t1| | | |]; try done. subst t1.
      destruct (prepare_status s t self u s' ev Hi E) as (_ & [(e & Hs & ->)|(Ha & Hs & ->)]).
      * rewrite Hs. rewrite answers_reply, Hone; cbn [done_after]. eapply X_prep_err; [exact Hreq|done].
      * rewrite Hs. rewrite answers_reply, Hone; cbn [done_after]. eapply X_prep_ok; [exact Hreq|done|exact Ha].
    + destruct c as [| |cb t1| | |]; try done. subst t1.
      destruct (commit_status _ _ _ _ Hi E) as (_ & [(e & -> & Hn & ->)|(x & lev & Hx & Hp & Hs & -> & Hl)]).
      * assert (Hd : done_after (QCommit t) s t dn = dn).
        { cbn. rewrite decide_True by done. destruct (s_tk s !! t) as [x|] eqn:Ex; [|done]. case_bool_decide as Hp; [|done].
          exfalso. apply (Hn (t_update x)). apply status_ready. eauto. }
        rewrite Hd. rewrite answers_reply, Hone; cbn [done_after]. eapply X_com_err; [exact Hreq|done|exact Hn].
      * assert (Hd : done_after (QCommit t) s t dn = Some (t_update x)).
        { cbn. rewrite decide_True by done. rewrite Hx. now rewrite bool_decide_eq_true_2. }
        rewrite Hd, Hs. rewrite answers_app, rsps_of_app. rewrite answers_reply, Hone.
        eapply X_com_ok; [exact Hreq|intros y; now apply Hlk|done|]. cbn. apply status_ready. eauto.
    + destruct c as [| | |cb t1| |]; try done. subst t1.
      destruct (rollback_status _ _ _ _ Hi E) as (_ & Hs & [(e & -> & Ha & ->)|(lev & Ha & -> & Hl)]).
      * rewrite Hs. rewrite answers_reply, Hone; cbn [done_after]. eapply X_rb_err; [exact Hreq|done|done].
      * rewrite Hs. rewrite answers_app, rsps_of_app. rewrite answers_reply, Hone.
        eapply X_rb_ok; [exact Hreq|intros y; now apply Hlk|done|done].
    + destruct c as [| | | |cb t1|]; try done. subst t1.
      destruct (finish_status _ _ _ _ Hi E) as (_ & [(e & -> & ->)|(Ha & Hs & ->)]).
      * rewrite answers_reply, Hone; cbn [done_after]. eapply X_fin_err; [exact Hreq|done].
      * rewrite Hs. rewrite answers_reply, Hone; cbn [done_after]. eapply X_fin_ok; [exact Hreq|done|done].
  - rewrite bool_decide_eq_false_2 in Hreq by done. cbn [app] in Hreq.
    assert (Hs : status_of s' t = status_of s t).
    { eapply other_status; [exact Hi|exact E|]. now destruct q. }
    assert (Hd : done_after q s t dn = dn).
    { destruct q; try done. cbn. rewrite decide_False; [done|]. intros ->. now apply Ht. }
    rewrite Hs, Hd, Hreq. apply (X_answers (Cell (status_of s t) (reqs_of t r) Q dn shs as_)).
    intros x Hx. apply elem_rsps_of in Hx as [Hx Hxt]. apply elem_of_list_omap in Hx as (e & He & Ex).
    pose proof (fits_tn _ _ Hf) as Hc. destruct e as [rid0 a|r0|m0].
    + destruct (wait !! rid0) as [c'|] eqn:Ew; [|discriminate]. apply Hw in Ew as (cid & tn & k & ->).
      injection Ex as <-. done.
    + injection Ex as <-. cbn in Hxt. congruence.
    + injection Ex as <-. cbn in Hxt. congruence.
Qed.

Lemma other_exec s o s' ev wait t R Q dn shs as_ :
  inv s -> step s o = Done (s', ev) -> op_tn o <> Some t -> locks_wait wait ->
  exec (Cell (status_of s t) R Q dn shs as_)
       (Cell (status_of s' t) R (Q ++ rsps_of t (answers wait None ev)) dn shs as_).
Proof.
  intros Hi E Ht Hw. rewrite (other_status _ _ _ _ _ Hi E Ht).
  apply (X_answers (Cell (status_of s t) R Q dn shs as_)).
  intros x Hx. apply elem_rsps_of in Hx as [Hx Hxt]. apply elem_of_list_omap in Hx as (e & He & Ex).
  destruct e as [rid0 a|r0|m0]; try discriminate.
  destruct (wait !! rid0) as [c'|] eqn:Ew; [|discriminate]. apply Hw in Ew as (cid & tn & k & ->).
  injection Ex as <-. done.
Qed.

(** The answers under way are well-formed. *)
Lemma answers_ok wait c ev : locks_wait wait -> (forall c', c = Some c' -> cont_ok c') ->
  forall x, x ∈ answers wait c ev -> cont_ok x.1.
Proof.
  intros Hw Hc x Hx. apply elem_of_list_omap in Hx as (e & He & Ex). destruct e as [rid a|r|m].
  - destruct (wait !! rid) as [c'|] eqn:Ew; [|discriminate]. apply Hw in Ew as (cid & tn & k & ->).
    injection Ex as <-. done.
  - destruct c as [c'|]; [|discriminate]. injection Ex as <-. cbn. auto.
  - destruct c as [c'|]; [|discriminate]. injection Ex as <-. cbn. auto.
Qed.
Lemma answers_get wait c ev x : locks_wait wait -> x ∈ answers wait c ev -> x.1 = KGet -> c = Some KGet.
Proof.
  intros Hw Hx Hk. apply elem_of_list_omap in Hx as (e & He & Ex). destruct e as [rid a|r|m].
  - destruct (wait !! rid) as [c'|] eqn:Ew; [|discriminate]. apply Hw in Ew as (cid & tn & k & ->).
    injection Ex as <-. done.
  - destruct c as [c'|]; [|discriminate]. injection Ex as <-. cbn in Hk. congruence.
  - destruct c as [c'|]; [|discriminate]. injection Ex as <-. cbn in Hk. congruence.
Qed.
