(** Model of the RPC servers: util/rpc/server.hpp, blocking_server.hpp, async_server.hpp,
    tcp_server.hpp, and of the raft server util/raft/rpc_server.hpp with node::replicate
    (util/raft/node.cpp) and the state machines that answer through blocking_call.

    Simplifications, valid for the whole file:
    - packets are whole (C71); the handler thread takes them one after the other (C72);
      the replies are recorded with the peer they are sent to, whether or not that peer is
      still connected (connection_manager::send drops those of peers that are gone);
    - each reply is recorded with the number of the request it belongs to, counted over the
      requests that reached the handler. The number is a ghost: no code reads it;
    - NuRaft is not part of the repository. Of it we assume only what the steps of
      [raft_step] allow: entries are appended, may be removed while they are not committed,
      are committed in order; a pending result is completed by the commit of its entry, or
      cancelled. Committing calls the state machine in the server's process. *)
From stdpp Require Import base option list.
From Coq Require Import NArith.
From Verif Require Import Base CodecModel MsgModel.
Open Scope N_scope.

(** [Over]: an exception leaves the handler thread or the commit thread, which ends the
    process (std::terminate; in the commit thread NuRaft calls state_manager::system_exit,
    util/raft/state_manager.cpp:114-116). *)
Inductive outcome (A : Type) := Done (a : A) | Over.
Arguments Done {A} a.
Arguments Over {A}.

(** * Typed servers *)
Section typed.
Context {Q R : Type} (cq : codec Q) (cr : codec R).

(** server::deserialize_request, server.hpp:56-60. *)
Definition deserialize_request (b : bytes) : res (option (N * Q)) :=
  from_buffer (c_rpc_request cq) b.

(** server::serialize_response, server.hpp:68-74. *)
Definition serialize_response (id : N) (r : option R) : bytes :=
  make_buffer (wr (c_rpc_response cr) (id, r)).

(** blocking_server::blocking_call, blocking_server.hpp:58-70. [h]: the registered handler,
    which may change the state of the program; none before one is registered. *)
Definition blocking_call {S} (h : option (S -> Q -> S * option R)) (s : S) (b : bytes)
    : outcome (S * option bytes) :=
  match deserialize_request b with
  | Ok (Some (id, q)) _ =>
      let '(s', r) := match h with Some f => f s q | None => (s, None) end in
      Done (s', Some (serialize_response id r))
  | Ok None _ => Done (s, None)
  | _ => Over
  end.

(** ** The asynchronous server: async_server::async_call, async_server.hpp:76-123, called by
    the handler of tcp_server::init, tcp_server.hpp:46-76. *)
Record async := Async {
  as_handler : bool;                      (* a handler is registered *)
  as_requests : list (N * N * Q);         (* peer, request ID and payload, per request *)
  as_sent : list (nat * N * bytes)        (* request number, peer, packet *)
}.
Definition async_init : async := Async false [] [].

(** What happens to the server. The handler is any program: [calls] are the values it gives
    to the response callback before it returns, [ret] is what it returns. It may call the
    callback later, too, any number of times. *)
Inductive async_event :=
| EvRegister                                              (* async_server.hpp:59-61 *)
| EvPacket (peer : N) (b : bytes) (calls : list (option R)) (ret : bool)
| EvCallback (request : nat) (r : option R).

Inductive step (A : Type) := Next (a : A) | Ended | Impossible.
Arguments Next {A} a.
Arguments Ended {A}.
Arguments Impossible {A}.

Definition async_step (s : async) (e : async_event) : step async :=
  match e with
  | EvRegister => Next (Async true (as_requests s) (as_sent s))
  | EvPacket p b calls ret =>
      match deserialize_request b with
      | Ok (Some (id, q)) _ =>
          (* async_server.hpp:84: an empty std::function throws std::bad_function_call *)
          if as_handler s then
            let c := length (as_requests s) in
            Next (Async true (as_requests s ++ [(p, id, q)])
                    (as_sent s ++ map (fun r => (c, p, serialize_response id r)) calls
                       ++ (if ret then [] else [(c, p, serialize_response id None)])))
          else Ended
      | Ok None _ => Next s
      | _ => Ended
      end
  | EvCallback c r =>
      match as_requests s !! c with
      | Some (p, id, _) =>
          Next (Async (as_handler s) (as_requests s)
                  (as_sent s ++ [(c, p, serialize_response id r)]))
      | None => Impossible
      end
  end.

Fixpoint async_run (s : async) (l : list async_event) : step async :=
  match l with
  | [] => Next s
  | e :: r => match async_step s e with Next s' => async_run s' r | x => x end
  end.

(** * The raft server *)

(** make_failure_response, server.hpp:80-88: only the header of the request is read. *)
Definition failure_response (id : N) : bytes :=
  make_buffer (wr (c_rpc_response c_unit) (id, None)).
Definition make_failure_response (b : bytes) : res (option bytes) :=
  match from_buffer c_u64 b with
  | Ok (Some id) s => Ok (Some (failure_response id)) s
  | Ok None s => Ok None s
  | Throw => Throw
  | NoFuel => NoFuel
  end.

(** state_machine::commit of the locking shard and of the ticket machine
    (locking_shard/state_machine.cpp:33-48, ticket_machine/state_machine.cpp:21-35):
    [None] is the null pointer. *)
Context {S : Type} (h : S -> Q -> S * option R).
Definition sm_commit (s : S) (b : bytes) : outcome (S * option bytes) :=
  blocking_call (Some h) s b.

(** A node that (re)starts commits its log from the beginning: there are no snapshots
    (locking_shard/state_machine.cpp:57-74). *)
Fixpoint sm_replay (s : S) (log : list bytes) : outcome S :=
  match log with
  | [] => Done s
  | b :: r => match sm_commit s b with Done (s', _) => sm_replay s' r | Over => Over end
  end.

Record raft := Raft {
  rf_requests : list (N * N * bytes);      (* peer, request ID, packet *)
  rf_pending : list bool;                  (* NuRaft still holds the request's callback *)
  rf_log : list (option nat * bytes);      (* the request an entry came from, the entry *)
  rf_applied : nat;                        (* entries committed *)
  rf_state : S;
  rf_sent : list (nat * N * bytes)
}.
Definition raft_init (s : S) : raft := Raft [] [] [] 0 s [].

Inductive raft_event :=
| EvRaftPacket (peer : N) (b : bytes) (leader accepted : bool)
| EvForeign (b : bytes)           (* an entry of another leader arrives *)
| EvTruncate (n : nat)            (* entries from [n] on are replaced by another leader *)
| EvCommit                        (* the next entry is committed *)
| EvCancel (request : nat).       (* NuRaft completes the request with an error *)

(** async_call in raw mode, async_server.hpp:99-121, with raft::rpc::server's handler,
    rpc_server.hpp:40-76, and node::replicate, node.cpp:85-97. *)
Definition raft_step (s : raft) (e : raft_event) : step raft :=
  match e with
  | EvRaftPacket p b leader accepted =>
      match from_buffer c_u64 b, make_failure_response b with
      | Ok (Some id) _, Ok (Some f) _ =>
          let c := length (rf_requests s) in
          if leader && accepted then
            Next (Raft (rf_requests s ++ [(p, id, b)]) (rf_pending s ++ [true])
                    (rf_log s ++ [(Some c, b)]) (rf_applied s) (rf_state s) (rf_sent s))
          else
            Next (Raft (rf_requests s ++ [(p, id, b)]) (rf_pending s ++ [false])
                    (rf_log s) (rf_applied s) (rf_state s) (rf_sent s ++ [(c, p, f)]))
      | Ok _ _, Ok None _ => Next s
      | _, _ => Ended
      end
  | EvForeign b =>
      Next (Raft (rf_requests s) (rf_pending s) (rf_log s ++ [(None, b)]) (rf_applied s)
              (rf_state s) (rf_sent s))
  | EvTruncate n =>
      if decide (rf_applied s <= n)%nat then
        Next (Raft (rf_requests s) (rf_pending s) (take n (rf_log s)) (rf_applied s)
                (rf_state s) (rf_sent s))
      else Impossible
  | EvCommit =>
      match rf_log s !! rf_applied s with
      | None => Impossible
      | Some (o, b) =>
          match sm_commit (rf_state s) b with
          | Over => Ended
          | Done (st, r) =>
              match o with
              | None => Next (Raft (rf_requests s) (rf_pending s) (rf_log s)
                                (1 + rf_applied s) st (rf_sent s))
              | Some c =>
                  match rf_requests s !! c, rf_pending s !! c with
                  | Some (p, id, _), Some true =>
                      Next (Raft (rf_requests s) (<[c := false]> (rf_pending s)) (rf_log s)
                              (1 + rf_applied s) st
                              (rf_sent s ++ [(c, p, default (failure_response id) r)]))
                  | _, _ => Next (Raft (rf_requests s) (rf_pending s) (rf_log s)
                                    (1 + rf_applied s) st (rf_sent s))
                  end
              end
          end
      end
  | EvCancel c =>
      match rf_requests s !! c, rf_pending s !! c with
      | Some (p, id, _), Some true =>
          Next (Raft (rf_requests s) (<[c := false]> (rf_pending s)) (rf_log s)
                  (rf_applied s) (rf_state s) (rf_sent s ++ [(c, p, failure_response id)]))
      | _, _ => Impossible
      end
  end.

Fixpoint raft_run (s : raft) (l : list raft_event) : step raft :=
  match l with
  | [] => Next s
  | e :: r => match raft_step s e with Next s' => raft_run s' r | x => x end
  end.
End typed.
Arguments Next {A} a.
Arguments Ended {A}.
Arguments Impossible {A}.

(** * The callers of PArSEC's shards *)

(** The methods of runtime_locking_shard::interface. *)
Inductive shard_call := CTryLock | CPrepare | CCommit | CRollback | CFinish | CGetTickets.

Notation shard_error := (N * option (N * bytes))%type.
(** The return types, interface.hpp:121, 148, 167, 183, 200, 221-222; an error code is its
    number. *)
Inductive shard_result :=
| RLock (x : bytes + shard_error)
| RStatus (x : option shard_error)
| RTickets (x : list (N * N) + N).

(** rpc::response, messages.hpp:69-71. *)
Notation shard_response :=
  ((bytes + shard_error) + (option shard_error + (list (N * N) + N)))%type.

(** How the server's handler ends, runtime_locking_shard/server.cpp:27-174. *)
Inductive served :=
| Refused                         (* handler_callback returns false *)
| InternalError                   (* [callback(error_code::internal_error)] *)
| FromShard (r : shard_result).   (* [callback(std::move(ret))] *)

(** error_code::internal_error, interface.hpp:63. *)
Definition internal_error : N := 10.

(** The response the callback is given. The argument [error_code::internal_error] is
    converted to a response: of its alternatives only get_tickets_return_type can be made
    from an error code implicitly, since shard_error has no converting constructor
    (interface.hpp:76-82). *)
Definition to_response (v : served) : option shard_response :=
  match v with
  | Refused => None
  | InternalError => Some (inr (inr (inr internal_error)))
  | FromShard (RLock x) => Some (inl x)
  | FromShard (RStatus x) => Some (inr (inl x))
  | FromShard (RTickets x) => Some (inr (inr x))
  end.

(** The callbacks of rpc::client, runtime_locking_shard/client.cpp:19-112, in the handler
    thread of the agent's process: the assertions, or else [value] and [std::get], fail for
    a response that is missing or of another alternative. *)
Definition client_take (k : shard_call) (o : option shard_response) : outcome shard_result :=
  match o with
  | None => Over
  | Some r =>
      match k, r with
      | CTryLock, inl x => Done (RLock x)
      | (CPrepare | CCommit | CRollback | CFinish), inr (inl x) => Done (RStatus x)
      | CGetTickets, inr (inr x) => Done (RTickets x)
      | _, _ => Over
      end
  end.

(** ticket_machine::rpc::client::fetch_tickets, ticket_machine/client.cpp:48-71: the same for
    the answer of the ticket machine, a range or an error. *)
Definition ticket_take (o : option (N * N + N)) : outcome (N * N + N) :=
  match o with None => Over | Some r => Done r end.
