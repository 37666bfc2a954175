(** What the broker's properties are about: which shards a transaction used, what its
    client asked to commit, what was committed where, and the rules clients follow. *)
From stdpp Require Import base option list gmap fin_maps fin_sets.
From Coq Require Import NArith.
From Verif Require Import Base ParsecShardModel ParsecShardSpec BrokerModel.
Open Scope N_scope.

Definition updates := gmap key bytes.

(** Where the client is with a transaction: it is locking keys ([Work]), it asked to
    commit ([Com]), it asked to roll back ([Roll]), or the broker crashed since
    ([Orphan]). *)
Inductive phase := Work | Com | Roll | Orphan.
Global Instance phase_eq_dec : EqDecision phase.
Proof. solve_decision. Defined.

(** Where the broker's process is: just started, recovering, or open to clients. *)
Inductive mode := Fresh | Recovering | Open.
Global Instance mode_eq_dec : EqDecision mode.
Proof. solve_decision. Defined.

(** What an observer of the clients and of the shards notes down. *)
Record memo := Memo {
  g_ph : gmap ticket_no phase;
  g_asked : gmap ticket_no (gset N);        (* shards a lock was requested on *)
  g_upd : gmap ticket_no updates;           (* the updates the client asked to commit *)
  g_done : gmap (ticket_no * N) updates;    (* what each shard committed, and when *)
  g_mode : mode
}.
Definition memo0 : memo := Memo ∅ ∅ ∅ ∅ Fresh.

Definition asked (g : memo) (tn : ticket_no) : gset N := default ∅ (g_asked g !! tn).

Definition broker_state (n : net) (tn : ticket_no) : option bstate :=
  bt_state <$> b_tk (n_b n) !! tn.

Section Spec.
Context (loc : key -> N) (nsh : N) (self : N) (own : ticket_no -> bool).

(** The updates that concern shard [i]. *)
Definition part (u : updates) (i : N) : updates := filter (fun p => loc p.1 = i) u.

(** The note taken when [a] happens in [n] and calls the callbacks [cs]. A lock
    requested after a rollback starts the transaction afresh. *)
Definition note (n : net) (g : memo) (a : act) (cs : list (caller * result)) : memo :=
  match a with
  | ABegin _ tn =>
      Memo (<[tn := Work]> (g_ph g)) (<[tn := ∅]> (g_asked g)) (g_upd g) (g_done g) (g_mode g)
  | ALock _ tn k _ _ =>
      match broker_state n tn with
      | Some BBegun =>
          Memo (g_ph g) (<[tn := asked g tn ∪ {[loc k]}]> (g_asked g)) (g_upd g) (g_done g) (g_mode g)
      | Some BAborted =>
          Memo (<[tn := Work]> (g_ph g)) (<[tn := {[loc k]}]> (g_asked g)) (delete tn (g_upd g))
            (g_done g) (g_mode g)
      | _ => g
      end
  | ACommit _ tn u _ _ =>
      match commit_check (n_b n) tn u with
      | inr _ => Memo (<[tn := Com]> (g_ph g)) (g_asked g) (<[tn := u]> (g_upd g)) (g_done g) (g_mode g)
      | inl _ => g
      end
  | ARollback _ tn _ _ =>
      match broker_state n tn with
      | Some BBegun => Memo (<[tn := Roll]> (g_ph g)) (g_asked g) (g_upd g) (g_done g) (g_mode g)
      | _ => g
      end
  | ARecover _ => Memo (g_ph g) (g_asked g) (g_upd g) (g_done g) Recovering
  | AShard i =>
      match n_req n i with
      | (QCommit tn, _) :: _ =>
          match s_tk (n_sh n i) !! tn with
          | Some t => if bool_decide (t_state t = Prepared)
                      then Memo (g_ph g) (g_asked g) (g_upd g) (<[(tn, i) := t_update t]> (g_done g)) (g_mode g)
                      else g
          | None => g
          end
      | _ => g
      end
  | AAnswer _ _ _ =>
      if existsb (fun c : caller * result => match c with (Recovery, ROk) => true | _ => false end) cs
      then Memo (g_ph g) (g_asked g) (g_upd g) (g_done g) Open
      else g
  | ACrash => Memo ((fun _ => Orphan) <$> g_ph g) (g_asked g) (g_upd g) (g_done g) Fresh
  | AFinish _ _ _ _ | AOther _ _ => g
  end.

(** The shards are visited in some order. *)
Definition an_order (ord : list N) : Prop := base.NoDup ord /\ forall i, i ∈ ord <-> i < nsh.

(** Requests of other brokers: not for tickets of this broker, under another broker
    identifier, and with request ids of their own (odd ones). *)
Definition others (o : op) : Prop :=
  match o with
  | OTryLock rid tn b _ _ _ => own tn = false /\ b <> self /\ N.odd rid = true
  | OPrepare tn _ _ | OCommit tn | ORollback tn | OFinish tn => own tn = false
  | OGetTickets _ => True
  end.

(** The rules: a broker recovers first and serves clients once recovery has reported
    success (as agentd.cpp:82-106 does); every transaction has a new ticket number; a
    client only uses tickets it got since the broker started; once it has started to
    commit it may only repeat that commit or roll back; once it has asked to roll back
    it waits for success before it locks or commits again. *)
Definition allowed (n : net) (g : memo) (a : act) : Prop :=
  match a with
  | ABegin _ tn => g_mode g = Open /\ own tn = true /\ g_ph g !! tn = None
  | ALock _ tn _ _ _ =>
      g_mode g = Open /\ g_ph g !! tn <> Some Orphan /\
      (g_ph g !! tn = Some Work \/ broker_state n tn = Some BAborted)
  | ACommit _ tn u ord _ =>
      g_mode g = Open /\ g_ph g !! tn <> Some Orphan /\ an_order ord /\
      ((exists e, commit_check (n_b n) tn u = inl e) \/ g_ph g !! tn = Some Work \/
       (g_ph g !! tn = Some Com /\ g_upd g !! tn = Some u))
  | ARollback _ tn ord _ | AFinish _ tn ord _ =>
      g_mode g = Open /\ g_ph g !! tn <> Some Orphan /\ an_order ord
  | ARecover _ => g_mode g = Fresh
  | AAnswer _ ord _ => an_order ord
  | AOther i o => i < nsh /\ others o
  | AShard _ | ACrash => True
  end.

(** Executions from the empty system. *)
Inductive reaches : net -> memo -> Prop :=
| reaches_0 : reaches net0 memo0
| reaches_step n g a n' cs :
    reaches n g -> allowed n g a -> n_step loc nsh self n a = Some (n', cs) ->
    reaches n' (note n g a cs).

(** The same under other rules [P], with all the callbacks called so far. *)
Inductive runs (P : net -> memo -> act -> Prop) : net -> memo -> list (caller * result) -> Prop :=
| runs_0 : runs P net0 memo0 []
| runs_step n g l a n' cs :
    runs P n g l -> P n g a -> n_step loc nsh self n a = Some (n', cs) ->
    runs P n' (note n g a cs) (l ++ cs).

(** The rules without the one on rollbacks: a client may commit again when a rollback
    has not succeeded. *)
Definition allowed_but_rollback (n : net) (g : memo) (a : act) : Prop :=
  allowed n g a \/
  match a with
  | ACommit _ tn u ord _ => g_mode g = Open /\ g_ph g !! tn = Some Roll /\ an_order ord /\ g_upd g !! tn = Some u
  | _ => False
  end.
(** The rules without the one on repeated commits: the updates may differ. *)
Definition allowed_but_updates (n : net) (g : memo) (a : act) : Prop :=
  allowed n g a \/
  match a with
  | ACommit _ tn u ord _ => g_mode g = Open /\ g_ph g !! tn = Some Com /\ an_order ord
  | _ => False
  end.
(** The rules without the one on recovery: it may be called again. *)
Definition allowed_but_recover (n : net) (g : memo) (a : act) : Prop :=
  allowed n g a \/ match a with ARecover _ => True | _ => False end.

(** Shard [i] has [tn] prepared with exactly the updates [u]. *)
Definition ready (n : net) (i : N) (tn : ticket_no) (u : updates) : Prop :=
  exists t, s_tk (n_sh n i) !! tn = Some t /\ t_state t = Prepared /\ t_update t = u.

(** Every shard the transaction used committed its part of the updates. *)
Definition committed_everywhere (g : memo) (tn : ticket_no) : Prop :=
  exists u, g_upd g !! tn = Some u /\
  forall j, j ∈ asked g tn -> g_done g !! (tn, j) = Some (part u j).
Definition committed_nowhere (g : memo) (tn : ticket_no) : Prop :=
  forall j, g_done g !! (tn, j) = None.

(** No shard knows the ticket. *)
Definition forgotten (n : net) (tn : ticket_no) : Prop := forall j, s_tk (n_sh n j) !! tn = None.

(** The value of a key on a shard. *)
Definition value (n : net) (i : N) (k : key) : bytes := e_val (el (n_sh n i) k).

(** The step [a] is part of the client's call number [cid] of commit, rollback or finish
    for [tn]: it is the call itself, or an answer to a request the call sent. *)
Definition of_commit (n : net) (a : act) (cid : N) (tn : ticket_no) : Prop :=
  match a with
  | ACommit cid' tn' _ _ _ => cid' = cid /\ tn' = tn
  | AAnswer i _ _ => exists c p r, n_rsp n i = (c, p) :: r /\
      (c = KPrepare (CUser cid) tn \/ c = KCommit (CUser cid) tn)
  | _ => False
  end.
Definition of_rollback (n : net) (a : act) (cid : N) (tn : ticket_no) : Prop :=
  match a with
  | ARollback cid' tn' _ _ => cid' = cid /\ tn' = tn
  | AAnswer i _ _ => exists p r, n_rsp n i = (KRollback (CUser cid) tn, p) :: r
  | _ => False
  end.
Definition of_finish (n : net) (a : act) (cid : N) (tn : ticket_no) : Prop :=
  match a with
  | AFinish cid' tn' _ _ => cid' = cid /\ tn' = tn
  | AAnswer i _ _ => exists p r, n_rsp n i = (KFinish (CUser cid) tn, p) :: r
  | _ => False
  end.

End Spec.

(** How often the callback of the client's call number [cid] was called. *)
Definition count_calls (cid : N) (l : list (caller * result)) : nat :=
  length (List.filter (fun c : caller * result => match c.1 with Client c' => c' =? cid | Recovery => false end) l).
