(** Model of the replicated PArSEC shard: the state machine the raft log drives
    (src/parsec/runtime_locking_shard/replicated_shard.cpp and state_machine.cpp), the
    server that couples it to the locking shard (server.cpp) and the take-over by a new
    leader (controller.cpp).

    Simplifications, valid for the whole file:
    - raft itself (NuRaft) is not modelled. The leader's log is a queue of entries not
      yet applied; entries are applied in order; on a change of leader some prefix of the
      queue survives and the rest is lost. Entries already applied survive;
    - an entry and the callback of its replication form one step. Nothing else reads the
      replicated state in between, except a take-over, which discards the locking shard;
    - [raft::node::replicate] may refuse a request: the argument [ok] of a request;
    - a client's request is represented by its operation; the answers are events. *)
From stdpp Require Import base option list gmap fin_maps.
From Coq Require Import NArith.
From Verif Require Import Base ParsecShardModel.
Open Scope N_scope.

(** replicated_shard's members, replicated_shard.hpp:73-75. *)
Record rstate := RState { r_store : gmap key bytes; r_tickets : gmap ticket_no rticket }.
Definition rstate0 : rstate := RState ∅ ∅.

(** The requests of the state machine that change it, state_machine.cpp:56-94. *)
Inductive entry :=
| LPrepare (tn : ticket_no) (broker : N) (upd : gmap key bytes)
| LCommit (tn : ticket_no)
| LFinish (tn : ticket_no).

(** replicated_shard::prepare, replicated_shard.cpp:9-23. [emplace] keeps an existing
    ticket. *)
Definition r_prepare (r : rstate) (tn : ticket_no) (b : N) (u : gmap key bytes) : rstate :=
  match r_tickets r !! tn with
  | Some _ => r
  | None => RState (r_store r) (<[tn := RTicket b u false]> (r_tickets r))
  end.

(** replicated_shard::commit, replicated_shard.cpp:25-42. The values are moved out of
    the ticket: a moved-from byte vector is empty. [None] is success. *)
Definition r_commit (r : rstate) (tn : ticket_no) : rstate * option error_code :=
  match r_tickets r !! tn with
  | None => (r, Some ErUnknownTicket)
  | Some t =>
      (RState (r_update t ∪ r_store r)
         (<[tn := RTicket (r_broker t) ((fun _ => []) <$> r_update t) true]> (r_tickets r)),
       None)
  end.

(** replicated_shard::finish, replicated_shard.cpp:44-53. *)
Definition r_finish (r : rstate) (tn : ticket_no) : rstate :=
  RState (r_store r) (delete tn (r_tickets r)).

(** state_machine::process_request, state_machine.cpp:56-94. *)
Definition r_apply (r : rstate) (e : entry) : rstate * option error_code :=
  match e with
  | LPrepare tn b u => (r_prepare r tn b u, None)
  | LCommit tn => r_commit r tn
  | LFinish tn => (r_finish r tn, None)
  end.

(** What the server does once the entry is replicated, server.cpp:88-174. *)
Inductive kont := KPrepare | KCommit | KRollback | KFinish.

(** The leader: the locking shard, the replicated state and the entries on their way. *)
Record leader := Leader {
  d_vol : shard;
  d_rep : rstate;
  d_queue : list (entry * kont)
}.
Definition leader0 : leader := Leader shard0 rstate0 [].

(** The answer a client gets: what the locking shard said, or [internal_error]. *)
Inductive reply :=
| RShard (evs : list event)
| RInternal
| RPrepared.

(** server::handler_callback, server.cpp:27-86, and handle_prepare up to the replication,
    server.cpp:88-99. [ok]: whether the entry could be handed to raft. If it could not,
    handle_prepare answers with an internal error (server.cpp:109-112); for the other
    requests handler_callback returns false. *)
Definition serve (d : leader) (o : op) (ok : bool) : res (leader * list reply) :=
  let put e k :=
    if ok then Done (Leader (d_vol d) (d_rep d) (d_queue d ++ [(e, k)]), [])
    else Done (d, [RInternal]) in
  match o with
  | OTryLock _ _ _ _ _ _ | OGetTickets _ =>
      bind (step (d_vol d) o) (fun '(s, ev) =>
        Done (Leader s (d_rep d) (d_queue d), [RShard ev]))
  | OPrepare tn b u =>
      bind (step (d_vol d) o) (fun '(s, ev) =>
        match ev with
        | [EReply None] =>
            if ok then Done (Leader s (d_rep d) (d_queue d ++ [(LPrepare tn b u, KPrepare)]), [])
            else Done (Leader s (d_rep d) (d_queue d), [RInternal])
        | _ => Done (Leader s (d_rep d) (d_queue d), [RShard ev])
        end)
  | OCommit tn => put (LCommit tn) KCommit
  | ORollback tn => put (LFinish tn) KRollback
  | OFinish tn => put (LFinish tn) KFinish
  end.

(** The oldest entry is committed by raft: the state machine applies it, then its
    callback runs (server.cpp:101-107, 115-133, 135-154, 156-174). [None]: nothing to
    apply. *)
Definition apply_entry (d : leader) : option (res (leader * list reply)) :=
  match d_queue d with
  | [] => None
  | (e, k) :: q =>
      let '(r, err) := r_apply (d_rep d) e in
      let d' := Leader (d_vol d) r q in
      let call o :=
        bind (step (d_vol d) o) (fun '(s, ev) => Done (Leader s r q, [RShard ev])) in
      Some (match err with
            | Some _ => Done (d', [RInternal])
            | None =>
                match e, k with
                | LCommit tn, _ => call (OCommit tn)
                | LFinish tn, KRollback => call (ORollback tn)
                | LFinish tn, _ => call (OFinish tn)
                | LPrepare _ _ _, _ => Done (d', [RPrepared])
                end
            end)
  end.

Definition r_apply_all (r : rstate) (es : list entry) : rstate :=
  fold_left (fun r e => (r_apply r e).1) es r.

(** A change of leader: the first [n] entries on their way survive. The new leader's
    state machine has applied them before it answers [get_tickets]; a new locking shard
    recovers from its state and tickets. controller.cpp:57-117. [None]: recovery fails
    and the new leader serves nothing. *)
Definition take_over (d : leader) (n : nat) : option leader :=
  let r := r_apply_all (d_rep d) (take n (fst <$> d_queue d)) in
  s ← recover shard0 (r_store r) (r_tickets r);
  Some (Leader s r []).

(** What can happen to the leader. *)
Inductive act :=
| AServe (o : op) (ok : bool)
| AApply
| ATakeOver (n : nat).

Definition act_step (d : leader) (a : act) : option (res (leader * list reply)) :=
  match a with
  | AServe o ok => Some (serve d o ok)
  | AApply => apply_entry d
  | ATakeOver n => d' ← take_over d n; Some (Done (d', []))
  end.
