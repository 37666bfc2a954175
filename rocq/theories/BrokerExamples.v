(** Concrete executions of the broker and two shards. *)
From stdpp Require Import base option list gmap fin_maps fin_sets.
From Coq Require Import NArith Lia.
From Verif Require Import Base ParsecShardModel ParsecShardSpec BrokerModel BrokerSpec.
Open Scope N_scope.

Global Instance berror_eq_dec : EqDecision berror.
Proof. solve_decision. Defined.
Global Instance error_code_eq_dec : EqDecision error_code.
Proof. solve_decision. Defined.
Global Instance result_eq_dec : EqDecision result.
Proof. solve_decision. Defined.
Global Instance caller_eq_dec : EqDecision caller.
Proof. solve_decision. Defined.
Global Instance cback_eq_dec : EqDecision cback.
Proof. solve_decision. Defined.
Global Instance cont_eq_dec : EqDecision cont.
Proof. solve_decision. Defined.

(** Even keys on shard 0, odd keys on shard 1; the broker's tickets are below 100. *)
Definition loc2 (k : key) : N := k mod 2.
Definition own2 (t : ticket_no) : bool := t <? 100.
Notation both := [0; 1] (only parsing).

Lemma loc2_ok k : loc2 k < 2.
Proof. apply N.mod_lt. lia. Qed.

Lemma both_order : an_order 2 both.
Proof.
  split.
  - apply NoDup_cons_2; [|apply NoDup_singleton]. intros H. apply elem_of_list_singleton in H. lia.
  - intros i. rewrite elem_of_cons, elem_of_list_singleton. lia.
Qed.

Definition modeb (g : memo) (m : mode) : bool := bool_decide (g_mode g = m).
Definition othersb (o : op) : bool :=
  match o with
  | OTryLock rid tn b _ _ _ => negb (own2 tn) && negb (b =? 7) && N.odd rid
  | OPrepare tn _ _ | OCommit tn | ORollback tn | OFinish tn => negb (own2 tn)
  | OGetTickets _ => true
  end.
Definition allowedb (n : net) (g : memo) (a : act) : bool :=
  match a with
  | ABegin _ tn => modeb g Open && own2 tn && bool_decide (g_ph g !! tn = None)
  | ALock _ tn _ _ _ =>
      modeb g Open && negb (bool_decide (g_ph g !! tn = Some Orphan)) &&
      (bool_decide (g_ph g !! tn = Some Work) || bool_decide (broker_state n tn = Some BAborted))
  | ACommit _ tn u ord _ =>
      modeb g Open && negb (bool_decide (g_ph g !! tn = Some Orphan)) && bool_decide (ord = both) &&
      (match commit_check (n_b n) tn u with inl _ => true | _ => false end ||
       bool_decide (g_ph g !! tn = Some Work) ||
       (bool_decide (g_ph g !! tn = Some Com) && bool_decide (g_upd g !! tn = Some u)))
  | ARollback _ tn ord _ | AFinish _ tn ord _ =>
      modeb g Open && negb (bool_decide (g_ph g !! tn = Some Orphan)) && bool_decide (ord = both)
  | ARecover _ => modeb g Fresh
  | AAnswer _ ord _ => bool_decide (ord = both)
  | AOther i o => (i <? 2) && othersb o
  | AShard _ | ACrash => true
  end.

Lemma othersb_ok o : othersb o = true -> others 7 own2 o.
Proof.
  destruct o; cbn; try done.
  2, 3, 4, 5: intros H; now apply negb_true_iff in H.
  intros H. apply andb_prop in H as [H H3]. apply andb_prop in H as [H1 H2].
  apply negb_true_iff in H1, H2. apply N.eqb_neq in H2. done.
Qed.
Lemma allowedb_ok n g a : allowedb n g a = true -> allowed 2 7 own2 n g a.
Proof.
  destruct a; cbn [allowedb allowed]; unfold modeb; rewrite ?andb_true_iff, ?negb_true_iff, ?bool_decide_eq_true, ?bool_decide_eq_false;
    rewrite ?orb_true_iff, ?andb_true_iff, ?bool_decide_eq_true; try done.
  - tauto.
  - tauto.
  - intros [[[H1 H2] ->] H3]. split; [done|]. split; [done|]. split; [apply both_order|].
    destruct H3 as [[H3|H3]|H3]; [left|auto..]. destruct (commit_check _ _ _); [eauto|discriminate].
  - intros [[H1 H2] ->]. auto using both_order.
  - intros [[H1 H2] ->]. auto using both_order.
  - intros ->. apply both_order.
  - intros [H1 H2]. split; [now apply N.ltb_lt|now apply othersb_ok].
Qed.

Fixpoint play (chk : net -> memo -> act -> bool) (n : net) (g : memo) (l : list (caller * result)) (acts : list act)
    : option (net * memo * list (caller * result)) :=
  match acts with
  | [] => Some (n, g, l)
  | a :: r =>
      if chk n g a then
        match n_step loc2 2 7 n a with
        | Some (n', cs) => play chk n' (note loc2 n g a cs) (l ++ cs) r
        | None => None
        end
      else None
  end.
Lemma play_runs (P : net -> memo -> act -> Prop) chk acts : (forall n g a, chk n g a = true -> P n g a) ->
  forall n g l n' g' l', runs loc2 2 7 P n g l -> play chk n g l acts = Some (n', g', l') -> runs loc2 2 7 P n' g' l'.
Proof.
  intros Hc. induction acts as [|a acts IH]; intros n g l n' g' l' H; cbn [play]; [now intros [= <- <- <-]|].
  destruct (chk n g a) eqn:Ek; [|discriminate]. destruct (n_step loc2 2 7 n a) as [[n1 cs]|] eqn:E; [|discriminate].
  intros Hp. eapply IH; [|exact Hp]. eapply runs_step; eauto.
Qed.
Lemma runs_reaches n g l : runs loc2 2 7 (allowed 2 7 own2) n g l -> reaches loc2 2 7 own2 n g.
Proof. induction 1; [apply reaches_0|]. eapply reaches_step; eauto. Qed.

Definition tried chk acts (f : net -> memo -> list (caller * result) -> bool) : bool :=
  match play chk net0 memo0 [] acts with Some (n, g, l) => f n g l | None => false end.
Lemma tried_ok (P : net -> memo -> act -> Prop) chk acts f : (forall n g a, chk n g a = true -> P n g a) ->
  tried chk acts f = true -> exists n g l, runs loc2 2 7 P n g l /\ f n g l = true.
Proof.
  intros Hc. unfold tried. destruct (play chk net0 memo0 [] acts) as [[[n g] l]|] eqn:E; [|discriminate].
  intros H. exists n, g, l. split; [|exact H]. eapply play_runs; [exact Hc|apply runs_0|exact E].
Qed.

Notation ans i := (AAnswer i both ∅) (only parsing).

(** Recovery of an empty system; ticket 3 locks key 10 on shard 0 and key 11 on shard 1. *)
Definition opening : list act :=
  [ARecover ∅; AShard 0; AShard 1; ans 0; ans 1;
   ABegin 50 3; ALock 51 3 10 Write true; ALock 52 3 11 Write true;
   AShard 0; AShard 1; ans 0; ans 1].
Definition upd3 : gmap key bytes := {[10 := [1]; 11 := [2]]}.

(** It asks to commit; both shards prepare; shard 0 commits. *)
Definition half : list act :=
  opening ++ [ACommit 53 3 upd3 both ∅; AShard 0; AShard 1; ans 0; ans 1; AShard 0].
(** Both shards have committed; the last answer is on its way. *)
Definition nearly : list act := half ++ [AShard 1; ans 0].
(** Its broker crashes with shard 0 committed and shard 1 prepared; the new one has
    asked the shards, committed on shard 1 and finished; the last answer is on its way. *)
Definition mending : list act :=
  half ++ [ACrash; ARecover ∅; AShard 0; AShard 1; ans 0; ans 1; AShard 1; ans 1; AShard 0; AShard 1; ans 0].
(** It asks to roll back instead; shard 0 has done so. *)
Definition undoing : list act := opening ++ [ARollback 54 3 both ∅; AShard 0; ans 0; AShard 1].
Definition rolling1 : list act := opening ++ [ARollback 54 3 both ∅].
Definition finishing : list act := nearly ++ [ans 1; AFinish 55 3 both ∅; AShard 0; AShard 1; ans 0].

Definition inb (c : caller * result) (l : list (caller * result)) : bool := existsb (fun x => bool_decide (x = c)) l.
Lemma inb_ok c l : inb c l = true -> c ∈ l.
Proof. intros H. apply existsb_exists in H as (x & Hx & E). apply bool_decide_eq_true in E as ->. now apply elem_of_list_In. Qed.

Definition called (n : net) (a : act) (c : caller * result) : bool :=
  match n_step loc2 2 7 n a with Some (_, cs) => inb c cs | None => false end.
Lemma called_ok n a c : called n a c = true -> exists n' cs, n_step loc2 2 7 n a = Some (n', cs) /\ c ∈ cs.
Proof.
  unfold called. destruct (n_step loc2 2 7 n a) as [[n' cs]|]; [|discriminate]. intros H. exists n', cs. split; [done|]. now apply inb_ok.
Qed.
Definition head_is (n : net) (i : N) (c : cont) : bool :=
  match n_rsp n i with (c', _) :: _ => bool_decide (c' = c) | [] => false end.
Lemma head_ok n i c : head_is n i c = true -> exists p r, n_rsp n i = (c, p) :: r.
Proof. unfold head_is. destruct (n_rsp n i) as [|[c' p] r]; [discriminate|]. intros H. apply bool_decide_eq_true in H as ->. eauto. Qed.

Lemma half_case : exists n g, reaches loc2 2 7 own2 n g /\
  g_done g !! (3, 0) = Some {[10 := [1]]} /\ g_done g !! (3, 1) = None /\ value n 0 10 = [1] /\ value n 1 11 = [].
Proof.
  destruct (tried_ok (allowed 2 7 own2) allowedb half (fun n g l =>
    bool_decide (g_done g !! (3, 0) = Some {[10 := [1]]}) && bool_decide (g_done g !! (3, 1) = None) &&
    bool_decide (value n 0 10 = [1]) && bool_decide (value n 1 11 = []))) as (n & g & l & R & H).
  - exact allowedb_ok.
  - vm_compute. reflexivity.
  - apply andb_prop in H as [H H4]. apply andb_prop in H as [H H3]. apply andb_prop in H as [H1 H2].
    apply bool_decide_eq_true in H1, H2, H3, H4. exists n, g. split; [now apply runs_reaches in R|auto].
Qed.

Definition readyb (n : net) (i : N) (tn : ticket_no) (u : updates) : bool :=
  match s_tk (n_sh n i) !! tn with Some t => bool_decide (t_state t = Prepared) && bool_decide (t_update t = u) | None => false end.
Lemma readyb_ok n i tn u : readyb n i tn u = true -> ready n i tn u.
Proof.
  unfold readyb, ready. destruct (s_tk (n_sh n i) !! tn) as [t|]; [|discriminate]. intros H. apply andb_prop in H as [H1 H2].
  apply bool_decide_eq_true in H1, H2. eauto.
Qed.
Definition next_is (n : net) (i : N) (f : breq -> bool) : bool := match n_req n i with (q, _) :: _ => f q | [] => false end.

Lemma commit_case : exists n g c r n' cs, reaches loc2 2 7 own2 n g /\ n_req n 1 = (QCommit 3, c) :: r /\
  ready n 1 3 {[11 := [2]]} /\ n_step loc2 2 7 n (AShard 1) = Some (n', cs).
Proof.
  destruct (tried_ok (allowed 2 7 own2) allowedb half (fun n g l =>
    next_is n 1 (fun q => match q with QCommit t => t =? 3 | _ => false end) && readyb n 1 3 {[11 := [2]]} &&
    match n_step loc2 2 7 n (AShard 1) with Some _ => true | None => false end)) as (n & g & l & R & H).
  - exact allowedb_ok.
  - vm_compute. reflexivity.
  - apply andb_prop in H as [H H3]. apply andb_prop in H as [H1 H2]. unfold next_is in H1.
    destruct (n_req n 1) as [|[q c] r] eqn:Eq; [discriminate|]. destruct q; try discriminate. apply N.eqb_eq in H1 as ->.
    apply readyb_ok in H2. destruct (n_step loc2 2 7 n (AShard 1)) as [[n' cs]|] eqn:E; [|discriminate].
    exists n, g, c, r, n', cs. split; [now apply runs_reaches in R|auto].
Qed.

(** The last answer makes the callback be called with success. *)
Lemma answer_case acts i w c : 
  tried allowedb acts (fun n g l => head_is n i c && called n (ans i) (w, ROk)) = true ->
  exists n g n' cs p r, reaches loc2 2 7 own2 n g /\ allowed 2 7 own2 n g (ans i) /\ n_rsp n i = (c, p) :: r /\
    n_step loc2 2 7 n (ans i) = Some (n', cs) /\ (w, ROk) ∈ cs.
Proof.
  intros T. destruct (tried_ok (allowed 2 7 own2) _ _ _ allowedb_ok T) as (n & g & l & R & H).
  apply andb_prop in H as [H1 H2]. apply head_ok in H1 as (p & r & E). apply called_ok in H2 as (n' & cs & E2 & Hin).
  exists n, g, n', cs, p, r. split; [now apply runs_reaches in R|]. split; [apply both_order|auto].
Qed.
Lemma committed_case : exists n g n' cs p r, reaches loc2 2 7 own2 n g /\ allowed 2 7 own2 n g (ans 1) /\
  n_rsp n 1 = (KCommit (CUser 53) 3, p) :: r /\ n_step loc2 2 7 n (ans 1) = Some (n', cs) /\ (Client 53, ROk) ∈ cs.
Proof. apply (answer_case nearly). vm_compute. reflexivity. Qed.
Lemma undone_case : exists n g n' cs p r, reaches loc2 2 7 own2 n g /\ allowed 2 7 own2 n g (ans 1) /\
  n_rsp n 1 = (KRollback (CUser 54) 3, p) :: r /\ n_step loc2 2 7 n (ans 1) = Some (n', cs) /\ (Client 54, ROk) ∈ cs.
Proof. apply (answer_case undoing). vm_compute. reflexivity. Qed.
Lemma finished_case : exists n g n' cs p r, reaches loc2 2 7 own2 n g /\ allowed 2 7 own2 n g (ans 1) /\
  n_rsp n 1 = (KFinish (CUser 55) 3, p) :: r /\ n_step loc2 2 7 n (ans 1) = Some (n', cs) /\ (Client 55, ROk) ∈ cs.
Proof. apply (answer_case finishing). vm_compute. reflexivity. Qed.
Lemma rollback_case : exists n g c r, reaches loc2 2 7 own2 n g /\ n_req n 0 = (QRollback 3, c) :: r /\
  s_tk (n_sh n 0) !! 3 <> None.
Proof.
  destruct (tried_ok (allowed 2 7 own2) allowedb rolling1 (fun n g l =>
    next_is n 0 (fun q => match q with QRollback t => t =? 3 | _ => false end) &&
    match s_tk (n_sh n 0) !! 3 with Some _ => true | None => false end)) as (n & g & l & R & H).
  - exact allowedb_ok.
  - vm_compute. reflexivity.
  - apply andb_prop in H as [H1 H2]. unfold next_is in H1.
    destruct (n_req n 0) as [|[q c] r] eqn:Eq; [discriminate|]. destruct q; try discriminate. apply N.eqb_eq in H1 as ->.
    exists n, g, c, r. split; [now apply runs_reaches in R|]. split; [done|]. now destruct (s_tk (n_sh n 0) !! 3).
Qed.
(** Recovery reports success with an orphan of which one shard had committed. *)
Lemma recovered_case : exists n g n' cs, reaches loc2 2 7 own2 n g /\ allowed 2 7 own2 n g (ans 1) /\
  n_step loc2 2 7 n (ans 1) = Some (n', cs) /\ (Recovery, ROk) ∈ cs /\ g_ph g !! 3 = Some Orphan /\
  g_done g !! (3, 1) = Some {[11 := [2]]}.
Proof.
  destruct (tried_ok (allowed 2 7 own2) allowedb mending (fun n g l =>
    called n (ans 1) (Recovery, ROk) && bool_decide (g_ph g !! 3 = Some Orphan) &&
    bool_decide (g_done g !! (3, 1) = Some {[11 := [2]]}))) as (n & g & l & R & H).
  - exact allowedb_ok.
  - vm_compute. reflexivity.
  - apply andb_prop in H as [H H3]. apply andb_prop in H as [H1 H2]. apply called_ok in H1 as (n' & cs & E & Hin).
    apply bool_decide_eq_true in H2, H3. exists n, g, n', cs. split; [now apply runs_reaches in R|]. split; [apply both_order|auto].
Qed.

(** ** Without the rules *)

Definition but_rollbackb (n : net) (g : memo) (a : act) : bool :=
  allowedb n g a ||
  match a with
  | ACommit _ tn u ord _ => modeb g Open && bool_decide (g_ph g !! tn = Some Roll) && bool_decide (ord = both) &&
      bool_decide (g_upd g !! tn = Some u)
  | _ => false
  end.
Lemma but_rollback_ok n g a : but_rollbackb n g a = true -> allowed_but_rollback 2 7 own2 n g a.
Proof.
  unfold but_rollbackb, allowed_but_rollback. rewrite orb_true_iff. intros [H|H]; [left; now apply allowedb_ok|right].
  destruct a; try discriminate. unfold modeb in H. rewrite !andb_true_iff, !bool_decide_eq_true in H.
  destruct H as [[[H1 H2] ->] H4]. auto using both_order.
Qed.
(** Both shards prepared and said so; the client asks to roll back, which reaches only
    shard 0; told that a shard is unreachable it asks to commit again. The broker takes
    the old answers for answers to the new request and commits: shard 1 commits, shard
    0 has already rolled back. *)
Definition torn : list act :=
  opening ++ [ACommit 53 3 upd3 both ∅; AShard 0; AShard 1; ARollback 54 3 both {[1]};
              ACommit 55 3 upd3 both ∅; ans 0; ans 1; AShard 0; AShard 0; AShard 0; AShard 1; AShard 1].
Lemma torn_case : exists n g l, runs loc2 2 7 (allowed_but_rollback 2 7 own2) n g l /\
  asked g 3 = {[0; 1]} /\ g_done g !! (3, 1) = Some {[11 := [2]]} /\ g_done g !! (3, 0) = None /\
  s_tk (n_sh n 0) !! 3 = None /\ value n 0 10 = [] /\ value n 1 11 = [2].
Proof.
  destruct (tried_ok (allowed_but_rollback 2 7 own2) but_rollbackb torn (fun n g l =>
    bool_decide (asked g 3 = {[0; 1]}) && bool_decide (g_done g !! (3, 1) = Some {[11 := [2]]}) &&
    bool_decide (g_done g !! (3, 0) = None) && match s_tk (n_sh n 0) !! 3 with None => true | _ => false end &&
    bool_decide (value n 0 10 = []) && bool_decide (value n 1 11 = [2]))) as (n & g & l & R & H).
  - exact but_rollback_ok.
  - vm_compute. reflexivity.
  - rewrite !andb_true_iff, !bool_decide_eq_true in H. destruct H as (((((H1 & H2) & H3) & H4) & H5) & H6).
    exists n, g, l. destruct (s_tk (n_sh n 0) !! 3); [discriminate|]. auto 10.
Qed.

Definition but_updatesb (n : net) (g : memo) (a : act) : bool :=
  allowedb n g a ||
  match a with
  | ACommit _ tn u ord _ => modeb g Open && bool_decide (g_ph g !! tn = Some Com) && bool_decide (ord = both)
  | _ => false
  end.
Lemma but_updates_ok n g a : but_updatesb n g a = true -> allowed_but_updates 2 7 own2 n g a.
Proof.
  unfold but_updatesb, allowed_but_updates. rewrite orb_true_iff. intros [H|H]; [left; now apply allowedb_ok|right].
  destruct a; try discriminate. unfold modeb in H. rewrite !andb_true_iff, !bool_decide_eq_true in H.
  destruct H as [[H1 H2] ->]. auto using both_order.
Qed.
(** The first commit reaches only shard 0; the second one carries other updates. *)
Definition mixed : list act :=
  opening ++ [ACommit 53 3 upd3 both {[1]}; AShard 0; ans 0;
              ACommit 55 3 {[10 := [8]; 11 := [9]]} both ∅; AShard 1; ans 1; AShard 0; AShard 1; ans 0; ans 1].
Lemma mixed_case : exists n g l, runs loc2 2 7 (allowed_but_updates 2 7 own2) n g l /\
  (Client 55, ROk) ∈ l /\ g_upd g !! 3 = Some {[10 := [8]; 11 := [9]]} /\ value n 0 10 = [1] /\ value n 1 11 = [9].
Proof.
  destruct (tried_ok (allowed_but_updates 2 7 own2) but_updatesb mixed (fun n g l =>
    inb (Client 55, ROk) l && bool_decide (g_upd g !! 3 = Some {[10 := [8]; 11 := [9]]}) &&
    bool_decide (value n 0 10 = [1]) && bool_decide (value n 1 11 = [9]))) as (n & g & l & R & H).
  - exact but_updates_ok.
  - vm_compute. reflexivity.
  - rewrite !andb_true_iff, !bool_decide_eq_true in H. destruct H as (((H1 & H2) & H3) & H4). apply inb_ok in H1.
    exists n, g, l. auto 10.
Qed.

(** A transaction that locked nothing: the commit does nothing at all. *)
Definition idle : list act := [ARecover ∅; AShard 0; AShard 1; ans 0; ans 1; ABegin 50 3].
Definition emptyb {A} (l : list A) : bool := match l with [] => true | _ => false end.
Lemma emptyb_ok {A} (l : list A) : emptyb l = true -> l = [].
Proof. now destruct l. Qed.
Lemma idle_case : exists n g n', reaches loc2 2 7 own2 n g /\ allowed 2 7 own2 n g (ACommit 51 3 ∅ both ∅) /\
  n_step loc2 2 7 n (ACommit 51 3 ∅ both ∅) = Some (n', []) /\
  (forall i, i < 2 -> n_req n' i = [] /\ n_rsp n' i = []) /\ n_wait n' = ∅ /\ broker_state n' 3 = Some BBegun.
Proof.
  destruct (tried_ok (allowed 2 7 own2) allowedb idle (fun n g l =>
    allowedb n g (ACommit 51 3 ∅ both ∅) &&
    match n_step loc2 2 7 n (ACommit 51 3 ∅ both ∅) with
    | Some (n', cs) => emptyb cs && emptyb (n_req n' 0) && emptyb (n_req n' 1) && emptyb (n_rsp n' 0) && emptyb (n_rsp n' 1) &&
        bool_decide (n_wait n' = ∅) && bool_decide (broker_state n' 3 = Some BBegun)
    | None => false
    end)) as (n & g & l & R & H).
  - exact allowedb_ok.
  - vm_compute. reflexivity.
  - apply andb_prop in H as [H1 H2]. apply allowedb_ok in H1.
    destruct (n_step loc2 2 7 n (ACommit 51 3 ∅ both ∅)) as [[n' cs]|] eqn:E; [|discriminate].
    rewrite !andb_true_iff, !bool_decide_eq_true in H2. destruct H2 as ((((((A & B) & C) & D) & F) & G) & I).
    apply emptyb_ok in A, B, C, D, F. subst cs. exists n, g, n'. split; [now apply runs_reaches in R|].
    split; [done|]. split; [done|]. split; [|done]. intros i Hi. assert (i = 0 \/ i = 1) as [->| ->] by lia; done.
Qed.

(** A commit asked for again while it is under way: its callback is called twice. *)
Definition twice : list act :=
  opening ++ [ACommit 53 3 upd3 both ∅; AShard 0; AShard 1; ans 0; ans 1; ACommit 55 3 upd3 both ∅;
              AShard 0; AShard 0; AShard 1; AShard 1; ans 0; ans 0; ans 1; ans 1].
Lemma twice_case : exists n g l, runs loc2 2 7 (allowed 2 7 own2) n g l /\ count_calls 55 l = 2%nat /\
  (Client 53, ROk) ∈ l.
Proof.
  destruct (tried_ok (allowed 2 7 own2) allowedb twice (fun n g l =>
    bool_decide (count_calls 55 l = 2%nat) && inb (Client 53, ROk) l)) as (n & g & l & R & H).
  - exact allowedb_ok.
  - vm_compute. reflexivity.
  - apply andb_prop in H as [H1 H2]. apply bool_decide_eq_true in H1. apply inb_ok in H2.
    exists n, g, l. auto.
Qed.

(** A second recovery in the same process: its answers are taken for those of the
    first, and it rolls back a transaction a client has just begun. *)
Definition but_recoverb (n : net) (g : memo) (a : act) : bool :=
  allowedb n g a || match a with ARecover _ => true | _ => false end.
Lemma but_recover_ok n g a : but_recoverb n g a = true -> allowed_but_recover 2 7 own2 n g a.
Proof.
  unfold but_recoverb, allowed_but_recover. rewrite orb_true_iff. intros [H|H]; [left; now apply allowedb_ok|right]. now destruct a.
Qed.
Definition again : list act :=
  [ARecover ∅; AShard 0; AShard 1; ans 0; ans 1; ARecover ∅; AShard 0; AShard 1].
(** With mode Recovering clients wait; the observer calls the broker open once the
    second recovery has reported success, which its first answer makes it do. *)
Definition again_full : list act :=
  again ++ [ans 0; ABegin 50 3; ALock 51 3 10 Write true; AShard 0; ans 0; ans 1; AShard 0].
Lemma again_case : exists n g l, runs loc2 2 7 (allowed_but_recover 2 7 own2) n g l /\
  g_ph g !! 3 = Some Work /\ (Client 51, RValue []) ∈ l /\ s_tk (n_sh n 0) !! 3 = None.
Proof.
  destruct (tried_ok (allowed_but_recover 2 7 own2) but_recoverb again_full (fun n g l =>
    bool_decide (g_ph g !! 3 = Some Work) && inb (Client 51, RValue []) l &&
    match s_tk (n_sh n 0) !! 3 with None => true | _ => false end)) as (n & g & l & R & H).
  - exact but_recover_ok.
  - vm_compute. reflexivity.
  - apply andb_prop in H as [H H3]. apply andb_prop in H as [H1 H2]. apply bool_decide_eq_true in H1. apply inb_ok in H2.
    exists n, g, l. destruct (s_tk (n_sh n 0) !! 3); [discriminate|]. auto.
Qed.
