(** Model of the RPC client, src/util/rpc/client.hpp and tcp_client.hpp, with the
    servers it talks to (blocking_server.hpp, async_server.hpp, tcp_server.hpp).

    Simplifications, valid for the whole file:
    - messages are pairs of a request ID and a payload: the encoding is the one of the
      C08-C11 model, and responses that cannot be decoded are ignored by the client
      (tcp_client.hpp:152-157);
    - the network may lose, delay, reorder and repeat messages but does not invent
      them: [requests] and [answers] are all messages ever sent, and any of them may
      arrive at any time, any number of times. A send that reports failure has sent
      nothing;
    - the steps are the accesses to the shared counter, to the map [m_responses] under
      its mutex, to the promise and the calls of callbacks. A thread that takes its own
      call's entry out of the map completes it in the same step;
    - a server answers a request with any payload, at any time, any number of times, with
      the header of the request (blocking_server.hpp:45-60, async_server.hpp:56-101). *)
From stdpp Require Import base option list gmap.
From Coq Require Import NArith.
From Verif Require Import Base.
Open Scope N_scope.

(** client.hpp:47-86: the two ways to call. *)
Inductive kind :=
| Blocking (with_timeout : bool)
| Callback.

(** What a call returned: [call] with a timeout gives the payload or nothing, [call]
    with a callback a boolean. *)
Inductive ret :=
| RValue (r : option bytes)
| RBool (b : bool).

Inductive phase :=
| Started                (* has its request ID, client.hpp:127-131 *)
| Registered             (* is in the map, tcp_client.hpp:90-99 *)
| Failing                (* send_to_one returned false *)
| Waiting                (* waits for the future *)
| TimedOut               (* wait_for returned a timeout *)
| Returned (r : ret).

Record call := Call {
  c_kind : kind;
  c_id : N;
  c_payload : bytes;
  c_phase : phase;
  c_sent : bool          (* ghost: the request went out *)
}.

(** A response: the server's payload, which may be nothing. *)
Notation resp := (option bytes) (only parsing).

(** A completion of the call with number [c]: the promise gets a value, or the user's
    callback is called. *)
Inductive event :=
| Fulfilled (c : nat) (v : option resp)
| Called (c : nat) (r : resp).

Record client := Client {
  r_counter : N;
  r_calls : list call;
  r_pending : gmap N nat;
  r_handler : option (nat * resp);   (* the entry the handler thread took out *)
  r_requests : list (N * bytes);
  r_answers : list (N * bytes * resp);
  r_events : list event;
  r_closed : bool
}.

Definition client_init : client := Client 0 [] ∅ None [] [] [] false.

Inductive rop :=
| RStart (k : kind) (p : bytes)
| RRegister (c : nat)
| RSend (c : nat) (ok : bool)
| RCleanup (c : nat)
| RTimeout (c : nat)
| RTimedOut (c : nat)
| RGet (c : nat)
| RServe (i : nat) (r : resp)
| RReceive (j : nat)
| RComplete
| RClose.

(** [Disabled]: the step cannot happen here. [Broken]: a failed assertion, or a promise
    set twice, which throws. *)
Inductive res := Next (s : client) | Disabled | Broken.

Definition set_calls (s : client) (cs : list call) : client :=
  Client (r_counter s) cs (r_pending s) (r_handler s) (r_requests s) (r_answers s) (r_events s)
    (r_closed s).
Definition set_pending (s : client) (p : gmap N nat) : client :=
  Client (r_counter s) (r_calls s) p (r_handler s) (r_requests s) (r_answers s) (r_events s)
    (r_closed s).
Definition set_handler (s : client) (h : option (nat * resp)) : client :=
  Client (r_counter s) (r_calls s) (r_pending s) h (r_requests s) (r_answers s) (r_events s)
    (r_closed s).
Definition add_request (s : client) (q : N * bytes) : client :=
  Client (r_counter s) (r_calls s) (r_pending s) (r_handler s) (r_requests s ++ [q]) (r_answers s)
    (r_events s) (r_closed s).
Definition add_answer (s : client) (a : N * bytes * resp) : client :=
  Client (r_counter s) (r_calls s) (r_pending s) (r_handler s) (r_requests s) (r_answers s ++ [a])
    (r_events s) (r_closed s).
Definition add_event (s : client) (e : event) : client :=
  Client (r_counter s) (r_calls s) (r_pending s) (r_handler s) (r_requests s) (r_answers s)
    (r_events s ++ [e]) (r_closed s).
Definition set_closed (s : client) : client :=
  Client (r_counter s) (r_calls s) (r_pending s) (r_handler s) (r_requests s) (r_answers s)
    (r_events s) true.

Definition with_phase (c : call) (p : phase) : call :=
  Call (c_kind c) (c_id c) (c_payload c) p (c_sent c).
Definition with_sent (c : call) (p : phase) : call :=
  Call (c_kind c) (c_id c) (c_payload c) p true.
Definition set_phase (s : client) (c : nat) (p : phase) : client :=
  set_calls s (alter (fun x => with_phase x p) c (r_calls s)).

Definition is_fulfilled (c : nat) (e : event) : bool :=
  match e with Fulfilled c' _ => bool_decide (c' = c) | Called _ _ => false end.

(** The value of the future of call [c], if it has one. *)
Fixpoint future_value (c : nat) (es : list event) : option (option resp) :=
  match es with
  | [] => None
  | Fulfilled c' v :: r => if bool_decide (c' = c) then Some v else future_value c r
  | Called _ _ :: r => future_value c r
  end.

(** set_response_value, tcp_client.hpp:102-111, with the callback that client.hpp:74-83
    wraps around the user's: without a response the user's callback is not called. *)
Definition complete (s : client) (c : nat) (v : option resp) : res :=
  match r_calls s !! c with
  | None => Disabled
  | Some x =>
      match c_kind x with
      | Blocking _ =>
          if existsb (is_fulfilled c) (r_events s) then Broken
          else Next (add_event s (Fulfilled c v))
      | Callback =>
          match v with
          | Some r => Next (add_event s (Called c r))
          | None => Next s
          end
      end
  end.

(** set_response, tcp_client.hpp:160-170, by the thread of the call itself. *)
Definition set_response_own (s : client) (id : N) (v : option resp) : res :=
  match r_pending s !! id with
  | Some c => complete (set_pending s (delete id (r_pending s))) c v
  | None => Next s
  end.

Definition then_phase (r : res) (c : nat) (p : phase) : res :=
  match r with Next s => Next (set_phase s c p) | Disabled => Disabled | Broken => Broken end.

(** The loop of the destructor, tcp_client.hpp:45-50. *)
Fixpoint complete_all (s : client) (l : list nat) : res :=
  match l with
  | [] => Next s
  | c :: r => match complete s c None with Next s' => complete_all s' r | x => x end
  end.

Definition is_open_op (o : rop) : bool :=
  match o with RGet _ | RServe _ _ => false | _ => true end.

Definition rpc_step (s : client) (o : rop) : res :=
  if r_closed s && is_open_op o then Disabled else
  match o with
  | RStart k p =>
      (* client.hpp:127-131: [m_current_request_id++] *)
      Next (Client (add64 (r_counter s) 1)
              (r_calls s ++ [Call k (r_counter s) p Started false])
              (r_pending s) (r_handler s) (r_requests s) (r_answers s) (r_events s) (r_closed s))
  | RRegister c =>
      (* tcp_client.hpp:90-97 *)
      match r_calls s !! c with
      | Some x =>
          match c_phase x with
          | Started =>
              match r_pending s !! c_id x with
              | Some _ => Broken
              | None => Next (set_phase (set_pending s (<[c_id x := c]> (r_pending s))) c Registered)
              end
          | _ => Disabled
          end
      | None => Disabled
      end
  | RSend c ok =>
      (* tcp_client.hpp:98-99 *)
      match r_calls s !! c with
      | Some x =>
          match c_phase x with
          | Registered =>
              if ok then
                Next (add_request
                        (set_calls s (<[c := with_sent x (match c_kind x with
                                                          | Blocking _ => Waiting
                                                          | Callback => Returned (RBool true)
                                                          end)]> (r_calls s)))
                        (c_id x, c_payload x))
              else Next (set_phase s c Failing)
          | _ => Disabled
          end
      | None => Disabled
      end
  | RCleanup c =>
      (* tcp_client.hpp:122-127 and 178-182 *)
      match r_calls s !! c with
      | Some x =>
          match c_phase x, c_kind x with
          | Failing, Blocking _ =>
              then_phase (set_response_own s (c_id x) None) c (Returned (RValue None))
          | Failing, Callback =>
              Next (set_phase (set_pending s (delete (c_id x) (r_pending s))) c
                      (Returned (RBool false)))
          | _, _ => Disabled
          end
      | None => Disabled
      end
  | RTimeout c =>
      (* tcp_client.hpp:129-131: the future is not ready *)
      match r_calls s !! c with
      | Some x =>
          match c_phase x, c_kind x, future_value c (r_events s) with
          | Waiting, Blocking true, None => Next (set_phase s c TimedOut)
          | _, _, _ => Disabled
          end
      | None => Disabled
      end
  | RTimedOut c =>
      (* tcp_client.hpp:132-133 *)
      match r_calls s !! c with
      | Some x =>
          match c_phase x with
          | TimedOut => then_phase (set_response_own s (c_id x) None) c (Returned (RValue None))
          | _ => Disabled
          end
      | None => Disabled
      end
  | RGet c =>
      (* tcp_client.hpp:137, client.hpp:55-60 *)
      match r_calls s !! c with
      | Some x =>
          match c_phase x, future_value c (r_events s) with
          | Waiting, Some v => Next (set_phase s c (Returned (RValue (mjoin v))))
          | _, _ => Disabled
          end
      | None => Disabled
      end
  | RServe i r =>
      match r_requests s !! i with
      | Some (id, p) => Next (add_answer s (id, p, r))
      | None => Disabled
      end
  | RReceive j =>
      (* response_handler and the extraction of set_response, tcp_client.hpp:150-166 *)
      match r_handler s, r_answers s !! j with
      | None, Some (id, _, r) =>
          match r_pending s !! id with
          | Some c => Next (set_handler (set_pending s (delete id (r_pending s))) (Some (c, r)))
          | None => Next s
          end
      | _, _ => Disabled
      end
  | RComplete =>
      (* tcp_client.hpp:167-169 *)
      match r_handler s with
      | Some (c, r) => complete (set_handler s None) c (Some r)
      | None => Disabled
      end
  | RClose =>
      (* ~tcp_client, tcp_client.hpp:38-51: the handler thread has ended *)
      match r_handler s with
      | None =>
          match complete_all s ((map_to_list (r_pending s)).*2) with
          | Next s' => Next (set_closed (set_pending s' ∅))
          | x => x
          end
      | Some _ => Disabled
      end
  end.

Fixpoint rpc_run (s : client) (l : list rop) : res :=
  match l with
  | [] => Next s
  | o :: r => match rpc_step s o with Next s' => rpc_run s' r | x => x end
  end.
