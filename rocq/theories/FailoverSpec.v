(** What property C38 says: the key-value store and the prepared tickets a replicated
    log stands for, and the executions of the leader. *)
From stdpp Require Import base option list gmap fin_maps.
From Coq Require Import NArith.
From Verif Require Import Base ParsecShardModel ParsecShardSpec FailoverModel.
Open Scope N_scope.

(** ** What a log stands for *)

(** The store and the open tickets after a log: a prepared ticket has an update; its
    commit writes the whole update into the store, once; [finish] ends a ticket. *)
Record meaning := Meaning {
  m_store : gmap key bytes;
  m_prepared : gmap ticket_no (gmap key bytes);
  m_committed : gset ticket_no
}.
Definition meaning0 : meaning := Meaning ∅ ∅ ∅.

Definition means (m : meaning) (e : entry) : meaning :=
  match e with
  | LPrepare tn _ u =>
      if decide (tn ∈ m_committed m) then m
      else match m_prepared m !! tn with
           | Some _ => m
           | None => Meaning (m_store m) (<[tn := u]> (m_prepared m)) (m_committed m)
           end
  | LCommit tn =>
      match m_prepared m !! tn with
      | Some u => Meaning (u ∪ m_store m) (delete tn (m_prepared m)) ({[tn]} ∪ m_committed m)
      | None => m
      end
  | LFinish tn =>
      Meaning (m_store m) (delete tn (m_prepared m)) (m_committed m ∖ {[tn]})
  end.
Definition meaning_of (es : list entry) : meaning := fold_left means es meaning0.

(** No ticket is committed when it is already committed. *)
Fixpoint commits_once_from (m : meaning) (es : list entry) : Prop :=
  match es with
  | [] => True
  | e :: r =>
      match e with LCommit tn => tn ∉ m_committed m | _ => True end /\
      commits_once_from (means m e) r
  end.
Definition commits_once (es : list entry) : Prop := commits_once_from meaning0 es.

(** ** Executions of the leader *)

Definition entry_tn (e : entry) : ticket_no :=
  match e with LPrepare tn _ _ | LCommit tn | LFinish tn => tn end.
Definition on_its_way (d : leader) (e : entry) : Prop := e ∈ fst <$> d_queue d.

(** What a broker that waits for answers keeps to: it does not prepare a ticket while
    an earlier commit, rollback or finish of it is unanswered, and it does not repeat a
    commit. *)
Definition polite (d : leader) (a : act) : Prop :=
  match a with
  | AServe (OPrepare tn _ _) _ => forall e, on_its_way d e -> entry_tn e <> tn
  | AServe (OCommit tn) _ =>
      ~ on_its_way d (LCommit tn) /\
      forall r, r_tickets (d_rep d) !! tn = Some r -> r_committed r = false
  | _ => True
  end.

(** An execution from the empty shard in which every request keeps to [P]: the acts,
    the entries applied so far (surviving every later change of leader), the answers. *)
Inductive leads (P : leader -> act -> Prop) :
    leader -> list act -> list entry -> list (list reply) -> Prop :=
| leads_nil : leads P leader0 [] [] []
| leads_serve d acts es rs o ok d' r :
    leads P d acts es rs -> P d (AServe o ok) ->
    act_step d (AServe o ok) = Some (Done (d', r)) ->
    leads P d' (acts ++ [AServe o ok]) es (rs ++ [r])
| leads_apply d acts es rs e k q d' r :
    leads P d acts es rs -> d_queue d = (e, k) :: q ->
    act_step d AApply = Some (Done (d', r)) ->
    leads P d' (acts ++ [AApply]) (es ++ [e]) (rs ++ [r])
| leads_take_over d acts es rs n d' r :
    leads P d acts es rs ->
    act_step d (ATakeOver n) = Some (Done (d', r)) ->
    leads P d' (acts ++ [ATakeOver n]) (es ++ take n (fst <$> d_queue d)) (rs ++ [r]).

(** The entries that are in the log after a change of leader that keeps [n] of those on
    their way. *)
Definition surviving (d : leader) (es : list entry) (n : nat) : list entry :=
  es ++ take n (fst <$> d_queue d).

(** The locking shard is as the log says: its values are the store's; its tickets are
    the open tickets, the prepared ones with their update and a write lock on every key
    of it, the committed ones without locks. *)
Definition restored (s : shard) (m : meaning) : Prop :=
  (forall k, e_val (el s k) = lookup_store (m_store m) k) /\
  (forall tn u, m_prepared m !! tn = Some u ->
     exists t, s_tk s !! tn = Some t /\ t_state t = Prepared /\ t_update t = u) /\
  (forall tn k, holds s tn k Write <->
     exists u, m_prepared m !! tn = Some u /\ is_Some (u !! k)) /\
  (forall tn k, ~ holds s tn k Read) /\
  (forall tn, in_state s tn Committed <-> tn ∈ m_committed m) /\
  (forall tn, is_Some (s_tk s !! tn) <-> is_Some (m_prepared m !! tn) \/ tn ∈ m_committed m).

(** The log entry for a request that must survive. *)
Definition entry_of (o : op) : option entry :=
  match o with
  | OPrepare tn b u => Some (LPrepare tn b u)
  | OCommit tn => Some (LCommit tn)
  | ORollback tn | OFinish tn => Some (LFinish tn)
  | OTryLock _ _ _ _ _ _ | OGetTickets _ => None
  end.
