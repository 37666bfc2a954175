(** What "the server answers" means, from the outside. *)
From stdpp Require Import base option list.
From Coq Require Import NArith.
From Verif Require Import Base CodecModel CodecSpec MsgModel ServerModel.
Open Scope N_scope.

(** The packet a client sends for the request [q] with the ID [id]. *)
Definition request_packet {Q} (cq : codec Q) (id : N) (q : Q) : bytes :=
  encoding (c_rpc_request cq) (id, q).

(** What a client reads from a reply: the ID of a request and the answer, [None] for
    a failure. *)
Definition client_reads {R} (cr : codec R) (b : bytes) (id : N) (r : option R) : Prop :=
  exists s, from_buffer (c_rpc_response cr) b = Ok (Some (id, r)) s.

(** The replies to request number [c]: to whom, and what. *)
Fixpoint replies (c : nat) (sent : list (nat * N * bytes)) : list (N * bytes) :=
  match sent with
  | [] => []
  | (c', p, b) :: r => (if Nat.eqb c' c then [(p, b)] else []) ++ replies c r
  end.

Section async.
Context {Q R : Type} (cq : codec Q) (cr : codec R).

Definition is_request (b : bytes) : bool :=
  match from_buffer (c_rpc_request cq) b with Ok (Some _) _ => true | _ => false end.

(** The values the handler gave to the callback of request [c], in order, and what it
    returned for it. Requests are numbered from [n]. *)
Fixpoint given (n c : nat) (l : list (@async_event R)) : list (option R) :=
  match l with
  | [] => []
  | EvRegister :: r => given n c r
  | EvPacket _ b calls _ :: r =>
      if is_request b then (if Nat.eqb n c then calls else []) ++ given (S n) c r
      else given n c r
  | EvCallback c' v :: r => (if Nat.eqb c' c then [v] else []) ++ given n c r
  end.
Fixpoint returned (n c : nat) (l : list (@async_event R)) : option bool :=
  match l with
  | [] => None
  | EvPacket _ b _ ret :: r =>
      if is_request b then if Nat.eqb n c then Some ret else returned (S n) c r
      else returned n c r
  | _ :: r => returned n c r
  end.

(** What a handler should do: return true and answer once, now or later, or return false and
    not answer. [obeys_with v]: and [v] is what the client is to be told. *)
Definition obeys_with (c : nat) (l : list (@async_event R)) (v : option R) : Prop :=
  returned 0 c l = Some true /\ given 0 c l = [v] \/
  returned 0 c l = Some false /\ given 0 c l = [] /\ v = None.

(** Packets consist of bytes, and the values given are values of their type. *)
Definition real_event (e : @async_event R) : Prop :=
  match e with
  | EvRegister => True
  | EvPacket _ b calls _ => Forall is_byte b /\ Forall (dom (c_option cr)) calls
  | EvCallback _ v => dom (c_option cr) v
  end.
Definition starts_registered (l : list (@async_event R)) : Prop :=
  exists r, l = EvRegister :: r.
Definition readable_event (e : @async_event R) : Prop :=
  match e with
  | EvPacket _ b _ _ => from_buffer (c_rpc_request cq) b <> Throw
  | _ => True
  end.
End async.

Definition real_packet (e : raft_event) : Prop :=
  match e with EvRaftPacket _ b _ _ => Forall is_byte b | _ => True end.

(** ** What a caller of a PArSEC shard is told *)

(** The results the methods of a shard can give for a call, interface.hpp:121-222. *)
Definition result_of (k : shard_call) (r : shard_result) : Prop :=
  match k, r with
  | CTryLock, RLock x => dom c_try_lock_return x
  | (CPrepare | CCommit | CRollback | CFinish), RStatus x => dom c_prepare_return x
  | CGetTickets, RTickets x => dom c_get_tickets_return x
  | _, _ => False
  end.
