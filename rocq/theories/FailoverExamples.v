(** Concrete executions of the replicated shard. *)
From stdpp Require Import base option list gmap fin_maps fin_sets.
From Coq Require Import NArith Lia.
From Verif Require Import Base ParsecShardModel ParsecShardSpec ParsecShardExamples
  FailoverModel FailoverSpec.
Open Scope N_scope.

Global Instance entry_eq_dec : EqDecision entry.
Proof. solve_decision. Defined.
Global Instance reply_eq_dec : EqDecision reply.
Proof. solve_decision. Defined.

Definition politeb (d : leader) (a : act) : bool :=
  match a with
  | AServe (OPrepare tn _ _) _ => forallb (fun e => negb (entry_tn e.1 =? tn)) (d_queue d)
  | AServe (OCommit tn) _ =>
      negb (existsb (fun e => bool_decide (e.1 = LCommit tn)) (d_queue d)) &&
      match r_tickets (d_rep d) !! tn with Some r => negb (r_committed r) | None => true end
  | _ => true
  end.

Lemma politeb_ok d a : politeb d a = true -> polite d a.
Proof.
  destruct a as [[]| |]; cbn; try done.
  - intros H e He. unfold on_its_way in He. apply elem_of_list_fmap in He as ([e' k] & -> & He).
    apply elem_of_list_In in He. rewrite forallb_forall in H. specialize (H _ He). cbn in *.
    intros C. apply N.eqb_eq in C. rewrite C in H. discriminate.
  - intros [H1 H2]%andb_prop. split.
    + intros C. unfold on_its_way in C. apply elem_of_list_fmap in C as ([e' k] & E & He).
      apply negb_true_iff in H1. apply elem_of_list_In in He.
      assert (existsb (fun e => bool_decide (e.1 = LCommit tn)) (d_queue d) = true); [|congruence].
      apply existsb_exists. eexists. split; [exact He|]. cbn in *. now apply bool_decide_eq_true.
    + intros r Hr. rewrite Hr in H2. now apply negb_true_iff in H2.
Qed.

(** Runs a list of acts. *)
Fixpoint play (chk : leader -> act -> bool) (d : leader) (es : list entry) (rs : list (list reply))
    (acts : list act) : option (leader * list entry * list (list reply)) :=
  match acts with
  | [] => Some (d, es, rs)
  | a :: r =>
      if chk d a then
        match act_step d a with
        | Some (Done (d', rp)) =>
            play chk d' (es ++ match a with
                               | AServe _ _ => []
                               | AApply => take 1 (fst <$> d_queue d)
                               | ATakeOver n => take n (fst <$> d_queue d)
                               end) (rs ++ [rp]) r
        | _ => None
        end
      else None
  end.

Lemma play_leads (P : leader -> act -> Prop) chk acts :
  (forall d a, chk d a = true -> P d a) ->
  forall d acts0 es rs d' es' rs', leads P d acts0 es rs ->
    play chk d es rs acts = Some (d', es', rs') -> leads P d' (acts0 ++ acts) es' rs'.
Proof.
  intros Hc. induction acts as [|a acts IH]; intros d acts0 es rs d' es' rs' H; cbn [play].
  - intros [= <- <- <-]. now rewrite app_nil_r.
  - destruct (chk d a) eqn:Ek; [|discriminate]. specialize (Hc d a Ek).
    destruct (act_step d a) as [[[d1 rp]| | |]|] eqn:E; try discriminate. intros Hp.
    replace (acts0 ++ a :: acts) with ((acts0 ++ [a]) ++ acts) by now rewrite <- app_assoc.
    eapply IH; [|exact Hp]. destruct a as [o ok| |n].
    + rewrite app_nil_r. eapply leads_serve; eassumption.
    + destruct (d_queue d) as [|[e k] q] eqn:Eq.
      * cbn [act_step] in E. unfold apply_entry in E. rewrite Eq in E. discriminate.
      * cbn. eapply leads_apply; eassumption.
    + eapply leads_take_over; eassumption.
Qed.

Definition tried chk acts (f : leader -> list entry -> list (list reply) -> bool) : bool :=
  match play chk leader0 [] [] acts with Some (d, es, rs) => f d es rs | None => false end.

Lemma tried_ok (P : leader -> act -> Prop) chk acts f :
  (forall d a, chk d a = true -> P d a) -> tried chk acts f = true ->
  exists d es rs, leads P d acts es rs /\ f d es rs = true.
Proof.
  intros Hc. unfold tried. destruct (play chk leader0 [] [] acts) as [[[d es] rs]|] eqn:E; [|discriminate].
  intros H. exists d, es, rs. split; [|exact H].
  change acts with ([] ++ acts). eapply play_leads; [exact Hc|apply leads_nil|exact E].
Qed.

Definition is_reply (r : reply) (rs : list (list reply)) : bool :=
  existsb (fun l => existsb (fun x => bool_decide (x = r)) l) rs.

(** Ticket 3 commits 7 to key 1; ticket 5 then prepares to write 8; ticket 6 has locked
    key 2 and its prepare is on its way, as is the commit of 5. *)
Definition acts1 : list act :=
  [AServe (OTryLock 100 3 0 1 Write true) true;
   AServe (OPrepare 3 0 {[1 := [7]]}) true; AApply;
   AServe (OCommit 3) true; AApply;
   AServe (OTryLock 101 5 0 1 Write true) true;
   AServe (OTryLock 102 6 0 2 Write true) true;
   AServe (OPrepare 5 0 {[1 := [8]]}) true; AApply;
   AServe (OCommit 5) true;
   AServe (OPrepare 6 0 {[2 := [9]]}) true].

Lemma acts1_case : exists d es rs, leads polite d acts1 es rs /\
  fst <$> d_queue d = [LCommit 5; LPrepare 6 0 {[2 := [9]]}] /\
  m_prepared (meaning_of es) !! 5 = Some {[1 := [8]]} /\ 3 ∈ m_committed (meaning_of es) /\
  e_val (el (d_vol d) 1) = [7].
Proof.
  destruct (tried_ok polite politeb acts1 (fun d es rs =>
    bool_decide (fst <$> d_queue d = [LCommit 5; LPrepare 6 0 {[2 := [9]]}]) &&
    bool_decide (m_prepared (meaning_of es) !! 5 = Some {[1 := [8]]}) &&
    bool_decide (3 ∈ m_committed (meaning_of es)) && bool_decide (e_val (el (d_vol d) 1) = [7])))
    as (d & es & rs & Hl & H).
  - exact politeb_ok.
  - vm_compute. reflexivity.
  - apply andb_prop in H as [H H4]. apply andb_prop in H as [H H3]. apply andb_prop in H as [H1 H2].
    apply bool_decide_eq_true in H1, H2, H3, H4. exists d, es, rs. auto.
Qed.

(** The entry of a prepare is applied. *)
Definition acts2 : list act :=
  [AServe (OTryLock 100 3 0 1 Write true) true; AServe (OPrepare 3 0 {[1 := [7]]}) true].

Lemma acts2_case : exists d es rs d', leads polite d acts2 es rs /\
  act_step d AApply = Some (Done (d', [RPrepared])).
Proof.
  destruct (tried_ok polite politeb acts2 (fun d es rs =>
    match act_step d AApply with Some (Done (_, [RPrepared])) => true | _ => false end))
    as (d & es & rs & Hl & H).
  - exact politeb_ok.
  - vm_compute. reflexivity.
  - exists d, es, rs. destruct (act_step d AApply) as [[[d' [|[| |] [|]]]| | |]|] eqn:E; try discriminate.
    exists d'. auto.
Qed.

Definition acts3 : list act := acts2 ++ [AApply; AServe (OCommit 3) true].

Lemma acts3_case : exists d es rs k d' ev, leads polite d acts3 es rs /\
  d_queue d = [(LCommit 3, k)] /\ act_step d AApply = Some (Done (d', [RShard ev])).
Proof.
  destruct (tried_ok polite politeb acts3 (fun d es rs =>
    match d_queue d with [(LCommit a, _)] => a =? 3 | _ => false end &&
    match act_step d AApply with Some (Done (_, [RShard _])) => true | _ => false end))
    as (d & es & rs & Hl & H).
  - exact politeb_ok.
  - vm_compute. reflexivity.
  - apply andb_prop in H as [H1 H2]. exists d, es, rs.
    destruct (d_queue d) as [|[[| a |] k] [|]] eqn:Eq; try discriminate.
    apply N.eqb_eq in H1. subst a. exists k.
    destruct (act_step d AApply) as [[[d' [|[ev| |] [|]]]| | |]|] eqn:E; try discriminate.
    exists d', ev. auto.
Qed.

(** A commit is repeated: the second one overwrites the replicated value with an empty
    one; the leader still has it, the next leader does not. *)
Definition acts_twice : list act :=
  [AServe (OTryLock 100 3 0 1 Write true) true;
   AServe (OPrepare 3 0 {[1 := [7]]}) true; AApply;
   AServe (OCommit 3) true; AApply; AServe (OCommit 3) true; AApply].

Lemma commit_twice : exists d es rs d', leads (fun _ _ => True) d acts_twice es rs /\
  RShard [EReply None] ∈ concat rs /\ e_val (el (d_vol d) 1) = [7] /\
  act_step d (ATakeOver 0) = Some (Done (d', [])) /\ e_val (el (d_vol d') 1) = [].
Proof.
  destruct (tried_ok (fun _ _ => True) (fun _ _ => true) acts_twice (fun d es rs =>
    is_reply (RShard [EReply None]) rs && bool_decide (e_val (el (d_vol d) 1) = [7]) &&
    match act_step d (ATakeOver 0) with
    | Some (Done (d', [])) => bool_decide (e_val (el (d_vol d') 1) = []) | _ => false end))
    as (d & es & rs & Hl & H).
  - done.
  - vm_compute. reflexivity.
  - apply andb_prop in H as [H H3]. apply andb_prop in H as [H1 H2].
    destruct (act_step d (ATakeOver 0)) as [[[d' [|]]| | |]|] eqn:E; try discriminate.
    apply bool_decide_eq_true in H2, H3. exists d, es, rs, d'. split; [exact Hl|].
    split; [|auto]. unfold is_reply in H1. apply existsb_exists in H1 as (l & Hin & H1).
    apply existsb_exists in H1 as (x & Hx & E1). apply bool_decide_eq_true in E1. subst x.
    apply elem_of_list_In, in_concat. eauto.
Qed.

(** A ticket is prepared while its rollback is not answered: the prepare is replicated
    although the locks are gone, another ticket prepares to write the same key, and the
    next leader restores both. *)
Definition acts_race : list act :=
  [AServe (OTryLock 100 3 0 1 Write true) true;
   AServe (ORollback 3) true; AServe (OPrepare 3 0 {[1 := [7]]}) true; AApply; AApply;
   AServe (OTryLock 101 5 0 1 Write true) true;
   AServe (OPrepare 5 0 {[1 := [8]]}) true; AApply].

Lemma rollback_race : exists d es rs d', leads (fun _ _ => True) d acts_race es rs /\
  act_step d (ATakeOver 0) = Some (Done (d', [])) /\
  holds (d_vol d') 3 1 Write /\ holds (d_vol d') 5 1 Write.
Proof.
  destruct (tried_ok (fun _ _ => True) (fun _ _ => true) acts_race (fun d es rs =>
    match act_step d (ATakeOver 0) with
    | Some (Done (d', [])) => holdsb (d_vol d') 3 1 Write && holdsb (d_vol d') 5 1 Write
    | _ => false end)) as (d & es & rs & Hl & H).
  - done.
  - vm_compute. reflexivity.
  - destruct (act_step d (ATakeOver 0)) as [[[d' [|]]| | |]|] eqn:E; try discriminate.
    apply andb_prop in H as [H1 H2]. exists d, es, rs, d'. split; [exact Hl|]. split; [exact E|].
    split; now apply holdsb_ok.
Qed.

(** A finish is requested for a prepared ticket: it is refused, but the ticket is gone
    from the replicated state. *)
Definition acts_finish : list act :=
  [AServe (OTryLock 100 3 0 1 Write true) true;
   AServe (OPrepare 3 0 {[1 := [7]]}) true; AApply; AServe (OFinish 3) true; AApply].

Lemma finish_prepared : exists d es rs d', leads polite d acts_finish es rs /\
  last rs = Some [RShard [EReply (Some (ErNotCommitted, None))]] /\ in_state (d_vol d) 3 Prepared /\
  act_step d (ATakeOver 0) = Some (Done (d', [])) /\ s_tk (d_vol d') !! 3 = None.
Proof.
  destruct (tried_ok polite politeb acts_finish (fun d es rs =>
    bool_decide (last rs = Some [RShard [EReply (Some (ErNotCommitted, None))]]) &&
    stateb (d_vol d) 3 Prepared &&
    match act_step d (ATakeOver 0) with
    | Some (Done (d', [])) => match s_tk (d_vol d') !! 3 with None => true | _ => false end
    | _ => false end)) as (d & es & rs & Hl & H).
  - exact politeb_ok.
  - vm_compute. reflexivity.
  - apply andb_prop in H as [H H3]. apply andb_prop in H as [H1 H2].
    destruct (act_step d (ATakeOver 0)) as [[[d' [|]]| | |]|] eqn:E; try discriminate.
    exists d, es, rs, d'. split; [exact Hl|]. apply bool_decide_eq_true in H1. split; [exact H1|].
    split; [now apply stateb_ok|]. split; [exact E|]. now destruct (s_tk (d_vol d') !! 3).
Qed.
