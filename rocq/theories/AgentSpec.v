(** Vocabulary of the theorems about agents and their servers. The record of an agent's
    past lists, newest first, the calls made into it ([In]) and what it did ([Out]). *)
From stdpp Require Import base option list gmap.
From Coq Require Import NArith.
From Verif Require Import Base ParsecShardModel BrokerModel AgentModel.
Open Scope N_scope.

(** [i] happened, and [e] is what had happened before. *)
Definition past (tr : list item) (i : item) (e : list item) : Prop :=
  exists later, tr = later ++ i :: e.

(** Request [id] was made, and taken, to do [q]. *)
Definition asked (tr : list item) (id : N) (q : areq) : Prop :=
  Out (OReq (Some id) q) ∈ tr.

(** Request [id] was answered with [r]; the run started by request [id] ended with [r]. *)
Definition got (tr : list item) (id : N) (r : result) : Prop := In (EvAnswer id r) ∈ tr.
Definition ended (tr : list item) (id : N) (r : rres) : Prop := In (EvRan id r) ∈ tr.

(** The ticket number a request is about. *)
Definition names (q : areq) : option ticket_no :=
  match q with
  | QaBegin | QaRun _ => None
  | QaFunction t _ | QaLock _ t _ _ | QaCommit t _ | QaRollback t | QaFinish t => Some t
  end.

(** The broker assigned ticket number [t]. *)
Definition assigned (tr : list item) (t : ticket_no) : Prop :=
  exists b, asked tr b QaBegin /\ got tr b (RTicket t).

(** A run of the function ended with updates [u]. *)
Definition computed (tr : list item) (u : updates) : Prop :=
  exists r v, asked tr r (QaRun v) /\ ended tr r (Ran u).

(** Nothing is asked for in order to write. *)
Definition writes_nothing (q : areq) : Prop :=
  match q with
  | QaFunction _ m | QaLock _ _ _ m => m = Read
  | QaCommit _ u => u = ∅
  | _ => True
  end.

(** The broker answered a commit with success. *)
Definition commit_ok (tr : list item) (t : ticket_no) (u : updates) : Prop :=
  exists c, asked tr c (QaCommit t u) /\ got tr c ROk.
Definition finish_ok (tr : list item) (t : ticket_no) : Prop :=
  exists f, asked tr f (QaFinish t) /\ got tr f ROk.

(** The requests that were answered, and: none was answered twice. *)
Definition answers (tr : list item) : list N :=
  omap (fun i : item => match i with
                        | In (EvAnswer id _) | In (EvRan id _) => Some id
                        | _ => None
                        end) tr.
Definition once (tr : list item) : Prop := base.NoDup (answers tr).

(** The requests that were made and not answered. *)
Fixpoint pending (tr : list item) : list (N * areq) :=
  match tr with
  | [] => []
  | Out (OReq (Some id) q) :: e => (id, q) :: pending e
  | In (EvAnswer id _) :: e | In (EvRan id _) :: e =>
      filter (fun p : N * areq => p.1 <> id) (pending e)
  | _ :: e => pending e
  end.

(** A failure to begin, to roll back or to finish: the broker could not be asked, or
    answered with an error. *)
Definition upkeep (q : areq) : bool :=
  match q with QaBegin | QaRollback _ | QaFinish _ => true | _ => false end.
Definition upkeep_failed (tr : list item) : Prop :=
  exists q, upkeep q = true /\
    (Out (OReq None q) ∈ tr \/
     exists id e, asked tr id q /\ got tr id (RErr e)).

(** What an agent in a given state waits for. *)
Definition awaits (s : ast) (q : areq) : Prop :=
  match s, q with
  | ABeginSent, QaBegin
  | AGetSent, QaFunction _ _
  | AStarted, (QaLock (Reacq _) _ _ _ | QaRun _)
  | ACommitSent, QaCommit _ _
  | AFinishSent, QaFinish _
  | ARollbackSent, QaRollback _ => True
  | _, _ => False
  end.

(** The requests in a part of the record. *)
Definition only (P : areq -> Prop) (l : list item) : Prop :=
  forall o q, Out (OReq o q) ∈ l -> P q.
Definition is_finish (q : areq) : Prop := exists t, q = QaFinish t.
Definition no_rollback (q : areq) : Prop := forall t, q <> QaRollback t.

(** Some commit was answered with success. *)
Definition committed (tr : list item) : Prop := exists t u, commit_ok tr t u.

(** A run started after the last request to roll back ended with [u]. *)
Definition fresh_run (tr : list item) (u : updates) : Prop :=
  exists l r v e, tr = l ++ Out (OReq (Some r) (QaRun v)) :: e /\
    only no_rollback l /\ ended l r (Ran u).

(** The broker confirmed a rollback, after which nothing was asked of it but to finish. *)
Definition undone (tr : list item) : Prop :=
  exists l id t e, tr = l ++ Out (OReq (Some id) (QaRollback t)) :: e /\
    got l id ROk /\ only is_finish l.

(** What happened since somebody was last told a result: the current attempt. *)
Fixpoint lately (tr : list item) : list item :=
  match tr with
  | [] => []
  | Out (OReport _) :: _ => []
  | i :: e => i :: lately e
  end.

(** In the current attempt, the broker answered a request with [r], or could not be asked. *)
Definition said (tr : list item) (q : areq) (r : result) : Prop :=
  exists id, asked tr id q /\ got (lately tr) id r.
Definition deaf (tr : list item) (q : areq) : Prop := Out (OReq None q) ∈ lately tr.

(** A shard said that another transaction took the locks. *)
Definition wounding (r : result) : Prop := exists d, r = RShardErr (ErWounded, d).

(** Reasons to run again: a wound, or a broker or runner that did not do what was asked. *)
Definition temporary (tr : list item) : Prop :=
  (exists t m r, said tr (QaFunction t m) r /\ (wounding r \/ exists x, r = RErr x)) \/
  (exists t u r, said tr (QaCommit t u) r /\ (wounding r \/ exists x, r = RErr x /\ x <> ECommitHazard)) \/
  (exists id v, asked tr id (QaRun v) /\ ended (lately tr) id RanWounded) \/
  (exists q, upkeep q = false /\ deaf tr q).

(** The reason behind each failure that is reported. *)
Definition reason (x : aerror) (tr : list item) : Prop :=
  match x with
  | XRetry => temporary tr
  | XRetrieval => exists t m c d, said tr (QaFunction t m) (RShardErr (c, d)) /\ c <> ErWounded
  | XExecution => exists id v, asked tr id (QaRun v) /\ ended (lately tr) id RanError
  | XCommit => exists t u r, said tr (QaCommit t u) r /\
                 (r = RErr ECommitHazard \/ exists c d, r = RShardErr (c, d) /\ c <> ErWounded)
  | XUnreachable => exists q, upkeep q = true /\ deaf tr q
  | XTicket => exists x, said tr QaBegin (RErr x)
  | XRollback => exists t x, said tr (QaRollback t) (RErr x)
  | XFinish => exists t x, said tr (QaFinish t) (RErr x)
  end.

(** What a run is told about a lock: the answer that has just come, or, once a lock of this
    attempt was refused with a wound, that it is wounded. *)
Definition lock_true (tr : list item) (run : N) (r : result) : Prop :=
  (exists id t k m e, asked tr id (QaLock (Runner run) t k m) /\ tr = In (EvAnswer id r) :: e) \/
  (wounding r /\ exists w t k m r', said tr (QaLock w t k m) r' /\ wounding r').
