(** Model of the PArSEC ticket machine and of the clients through which brokers use
    it, src/parsec/ticket_machine/{impl,client,state_machine}.cpp, and of the
    directory, src/parsec/directory/impl.cpp.

    Simplifications, valid for the whole file:
    - a result callback is represented by the number [rid] of the call it was passed
      with;
    - the ticket machine is a Raft state machine without snapshots: its state is the
      effect of the committed log entries, one per request, so the whole replicated
      service is one counter;
    - the client's methods hold its mutex over their critical sections and call the
      callbacks after it; each method is one atomic step;
    - [m_client->call] either sends the request or reports that it could not: the
      boolean [ok]. The RPC layer hands each response to the client that asked, once
      (C45). *)
From stdpp Require Import base option list.
From Coq Require Import NArith.
From Verif Require Import Base.
Open Scope N_scope.

(** impl::get_ticket_number, impl.cpp:14-20: [m_next_ticket_number.fetch_add(m_range)]
    on a 64-bit counter; answers the range [(old, old + m_range)]. *)
Definition take_range (next range : N) : (N * N) * N :=
  ((next, add64 next range), add64 next range).

(** The members of client, client.hpp:42-49. *)
Record client := Client {
  c_tickets : list N;      (* m_tickets *)
  c_fetching : bool;       (* m_fetching_tickets *)
  c_callbacks : list N     (* m_callbacks *)
}.
Definition client0 : client := Client [] false [].

(** What a callback is called with: the range [{n, n}], or an error code. *)
Inductive answer := Number (n : N) | Failed.

(** What a client's step does: its new state, the callbacks it calls in order, whether
    it sent a request for a range, and what the call returns. *)
Record effect := Effect {
  ef_client : client;
  ef_answers : list (N * answer);
  ef_request : bool;
  ef_return : bool
}.

(** client::get_ticket_number, client.cpp:19-49. *)
Definition get_ticket_number (c : client) (rid : N) (ok : bool) : effect :=
  let fetch := (length (c_tickets c) <? 500)%nat && negb (c_fetching c) in
  if fetch && (match c_tickets c with [] => true | _ => false end) && negb ok
  then Effect c [] false false
  else
    let fetching := c_fetching c || (fetch && ok) in
    match c_tickets c with
    | [] => Effect (Client [] fetching (c_callbacks c ++ [rid])) [] (fetch && ok) true
    | n :: r => Effect (Client r fetching (c_callbacks c)) [(rid, Number n)] (fetch && ok) true
    end.

(** The loop [for(i = range.first; i < range.second; i++)], client.cpp:83-85. *)
Definition numbers (range : N * N) : list N :=
  (fun i => fst range + N.of_nat i) <$> seq 0 (N.to_nat (snd range - fst range)).

(** The loop that pairs waiting callbacks with numbers, client.cpp:86-91. *)
Fixpoint pair_up (ts cbs : list N) : list (N * answer) * list N * list N :=
  match ts, cbs with
  | t :: ts', b :: cbs' =>
      let '(a, ts'', cbs'') := pair_up ts' cbs' in ((b, Number t) :: a, ts'', cbs'')
  | _, _ => ([], ts, cbs)
  end.

(** client::handle_ticket_numbers, client.cpp:78-110. *)
Definition handle_ticket_numbers (c : client) (range : N * N) (ok : bool) : effect :=
  let '(a, ts, cbs) := pair_up (c_tickets c ++ numbers range) (c_callbacks c) in
  match cbs with
  | [] => Effect (Client ts false []) a false true
  | _ => Effect (Client ts (c_fetching c && ok) cbs) a ok true
  end.

(** The error branch of client::fetch_tickets, client.cpp:59-72. *)
Definition handle_error (c : client) : effect :=
  Effect (Client (c_tickets c) false []) ((fun b => (b, Failed)) <$> c_callbacks c) false true.

(** ** The service with any number of clients *)

Record system := System {
  sy_next : N;                      (* m_next_ticket_number *)
  sy_clients : list client;
  sy_requests : list nat;           (* requests on their way to the service *)
  sy_ranges : list (nat * (N * N))  (* responses on their way to the clients *)
}.

Definition system0 (n : nat) : system := System 0 (replicate n client0) [] [].

(** What can happen. [AServe], [ADeliver] and the losses name the position of the
    message in the network: messages may overtake each other. [AFail]: the service
    answers a request with an error code. [ANull]: the service answers with no value,
    on which the client's assert (client.cpp:55) ends the process; [ARestart] is any
    other end of the client's process. A new process starts with [client0]. *)
Inductive action :=
| AGet (i : nat) (rid : N) (ok : bool)
| AServe (j : nat)
| AFail (j : nat)
| ANull (j : nat)
| ADeliver (j : nat) (ok : bool)
| ALoseRequest (j : nat)
| ALoseResponse (j : nat)
| ARestart (i : nat).

Definition apply_effect (s : system) (i : nat) (e : effect) : system * list (N * answer) :=
  (System (sy_next s) (<[i := ef_client e]> (sy_clients s))
     (sy_requests s ++ (if ef_request e then [i] else [])) (sy_ranges s),
   ef_answers e).

(** One action; an action that is not possible changes nothing. *)
Definition act (range : N) (s : system) (a : action) : system * list (N * answer) :=
  match a with
  | AGet i rid ok =>
      match sy_clients s !! i with
      | Some c => apply_effect s i (get_ticket_number c rid ok)
      | None => (s, [])
      end
  | AServe j =>
      match sy_requests s !! j with
      | Some i =>
          let '(r, next) := take_range (sy_next s) range in
          (System next (sy_clients s) (delete j (sy_requests s)) (sy_ranges s ++ [(i, r)]), [])
      | None => (s, [])
      end
  | AFail j =>
      match sy_requests s !! j with
      | Some i =>
          let s' := System (sy_next s) (sy_clients s) (delete j (sy_requests s)) (sy_ranges s) in
          match sy_clients s !! i with
          | Some c => apply_effect s' i (handle_error c)
          | None => (s', [])
          end
      | None => (s, [])
      end
  | ANull j =>
      match sy_requests s !! j with
      | Some i => (System (sy_next s) (<[i := client0]> (sy_clients s))
                     (delete j (sy_requests s)) (sy_ranges s), [])
      | None => (s, [])
      end
  | ADeliver j ok =>
      match sy_ranges s !! j with
      | Some (i, r) =>
          let s' := System (sy_next s) (sy_clients s) (sy_requests s) (delete j (sy_ranges s)) in
          match sy_clients s !! i with
          | Some c => apply_effect s' i (handle_ticket_numbers c r ok)
          | None => (s', [])
          end
      | None => (s, [])
      end
  | ALoseRequest j => (System (sy_next s) (sy_clients s) (delete j (sy_requests s)) (sy_ranges s), [])
  | ALoseResponse j => (System (sy_next s) (sy_clients s) (sy_requests s) (delete j (sy_ranges s)), [])
  | ARestart i => (System (sy_next s) (<[i := client0]> (sy_clients s)) (sy_requests s) (sy_ranges s), [])
  end.

(** A run: the final state and, in order, the callbacks called. *)
Fixpoint acts (range : N) (s : system) (l : list action) : system * list (N * answer) :=
  match l with
  | [] => (s, [])
  | a :: r =>
      let '(s1, o1) := act range s a in
      let '(s2, o2) := acts range s1 r in
      (s2, o1 ++ o2)
  end.

(** ** The directory *)

(** impl::key_location, directory/impl.cpp:11-22; [None]: division by zero (undefined
    behaviour). [sip] is the key's SipHash with the code's constant key
    (util/common/hashmap.hpp:47-58). *)
Definition key_location (sip : bytes -> N) (n_shards : N) (key : bytes) : option N :=
  if n_shards =? 0 then None else Some (sip key mod n_shards).
