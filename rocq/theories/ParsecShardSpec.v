(** What the properties C32-C37 say about the PArSEC shard, in terms of the locks
    tickets hold and wait for and of the requests and answers a client sees. *)
From stdpp Require Import base option list gmap fin_maps fin_sets relations.
From Coq Require Import NArith.
From Verif Require Import Base ParsecShardModel.
Open Scope N_scope.

(** ** Locks *)

(** Ticket [tn] holds a lock of type [m] on [k]. *)
Definition holds (s : shard) (tn : ticket_no) (k : key) (m : lock_type) : Prop :=
  exists t, s_tk s !! tn = Some t /\ t_held t !! k = Some m.

(** Ticket [tn]'s request [rid] for a lock of type [m] on [k] is waiting. *)
Definition waits (s : shard) (tn : ticket_no) (k : key) (m : lock_type) (rid : N) : Prop :=
  QEnt tn m rid ∈ e_queue (el s k).

(** Two locks on one key conflict unless both are read locks. *)
Definition conflict (a b : lock_type) : Prop := a = Write \/ b = Write.

Definition in_state (s : shard) (tn : ticket_no) (x : ticket_state) : Prop :=
  exists t, s_tk s !! tn = Some t /\ t_state t = x.

(** [a] waits for [b]: [a] has a waiting request for a key on which [b] holds a
    conflicting lock, or on which [b] waits ahead of it (older first). *)
Definition waits_for (s : shard) (a b : ticket_no) : Prop :=
  a <> b /\ exists k ma rid, waits s a k ma rid /\
    ((exists mb, holds s b k mb /\ conflict mb ma) \/
     (exists mb rid', waits s b k mb rid' /\ b < a)).

(** ** Executions *)

(** What recovery hands to a new shard: no two prepared tickets write one key. *)
Definition disjoint_tickets (ts : gmap ticket_no rticket) : Prop :=
  forall a b ra rb k, ts !! a = Some ra -> ts !! b = Some rb -> a <> b ->
    r_committed ra = false -> r_committed rb = false ->
    is_Some (r_update ra !! k) -> is_Some (r_update rb !! k) -> False.

(** The shard starts empty ([state = ∅], [ts = ∅]) or from what its replicated state
    recorded, and then serves any requests. *)
Definition started (state : gmap key bytes) (ts : gmap ticket_no rticket) (s : shard) : Prop :=
  disjoint_tickets ts /\ recover shard0 state ts = Some s.

Definition executes state ts (os : list op) (s : shard) (tr : list (op * list event)) : Prop :=
  exists s0, started state ts s0 /\ run s0 os = Done (s, tr).

Definition reachable (s : shard) : Prop :=
  exists state ts os tr, executes state ts os s tr.

(** ** Requests and their answers *)

Definition op_rids (o : op) : list N :=
  match o with OTryLock rid _ _ _ _ _ => [rid] | _ => [] end.
Definition issued (os : list op) : list N := concat (op_rids <$> os).

Definition ev_rids (evs : list event) : list N :=
  omap (fun e => match e with ELock rid _ => Some rid | _ => None end) evs.
(** The requests answered in an execution, once for each answer. *)
Definition answered (tr : list (op * list event)) : list N :=
  concat ((fun p => ev_rids p.2) <$> tr).

(** The request is still waiting for its answer. *)
Definition waiting (s : shard) (rid : N) : Prop := exists tn k m, waits s tn k m rid.

(** ** The client's view of an execution: what it asked for, what it was given, and a
    plain key-value store to which each committed ticket's writes are applied in one
    step, in commit order. *)
Record view := View {
  v_req : gmap N (ticket_no * key);           (* what each request asked for *)
  v_got : gmap (ticket_no * key) bytes;       (* values given to unfinished tickets *)
  v_upd : gmap ticket_no (gmap key bytes);    (* updates of prepared tickets *)
  v_store : gmap key bytes
}.

Definition succeeded (evs : list event) : bool :=
  existsb (fun e => match e with EReply None => true | _ => false end) evs.

Definition see_grant (v : view) (e : event) : view :=
  match e with
  | ELock rid (Granted x) =>
      match v_req v !! rid with
      | Some p => View (v_req v) (<[p := x]> (v_got v)) (v_upd v) (v_store v)
      | None => v
      end
  | _ => v
  end.

Definition forget (tn : ticket_no) (v : view) : view :=
  View (v_req v) (filter (fun p => p.1.1 <> tn) (v_got v)) (delete tn (v_upd v)) (v_store v).

(** The effect of the request itself, before the grants it causes. *)
Definition see_op (v : view) (o : op) (evs : list event) : view :=
  match o with
  | OTryLock rid tn _ k _ _ => View (<[rid := (tn, k)]> (v_req v)) (v_got v) (v_upd v) (v_store v)
  | OPrepare tn _ u =>
      if succeeded evs then View (v_req v) (v_got v) (<[tn := u]> (v_upd v)) (v_store v) else v
  | OCommit tn =>
      if succeeded evs
      then forget tn (View (v_req v) (v_got v) (v_upd v)
                        (default ∅ (v_upd v !! tn) ∪ v_store v))
      else v
  | ORollback tn => if succeeded evs then forget tn v else v
  | _ => v
  end.

Definition see (v : view) (p : op * list event) : view :=
  fold_left see_grant p.2 (see_op v p.1 p.2).

Definition view_of (v0 : view) (tr : list (op * list event)) : view := fold_left see tr v0.

(** The view at the start: the recovered store and the prepared tickets' updates. *)
Definition view0 (state : gmap key bytes) (ts : gmap ticket_no rticket) : view :=
  View ∅ ∅ (r_update <$> filter (fun p => r_committed p.2 = false) ts) state.

Definition lookup_store (st : gmap key bytes) (k : key) : bytes := default [] (st !! k).
