(** C80: a server answers each request once, with the request's ID and what its handler said.
    C81: what a PArSEC shard answers reaches its caller. *)
From stdpp Require Import base option list.
From Coq Require Import NArith.
From Verif Require Import Base CodecModel CodecSpec CodecProofs TxModel MsgModel ServerModel
  ServerSpec ServerProofs ServerRaft ServerExamples.
Open Scope N_scope.

(** ** C80, servers that answer at once *)
Theorem C80_blocking_answer {Q R S} (cq : codec Q) (cr : codec R) (h : S -> Q -> S * option R)
    s id q trailing :
  lawful cq -> lawful cr -> dom c_u64 id -> dom cq q -> dom (c_option cr) (snd (h s q)) ->
  exists b, blocking_call cq cr (Some h) s (request_packet cq id q ++ trailing)
            = Done (fst (h s q), Some b) /\ client_reads cr b id (snd (h s q)).
Proof. exact (blocking_answer cq cr h s id q trailing). Qed.
Print Assumptions C80_blocking_answer.
Example C80_blocking_example : dom c_u64 5 /\ dom c_ls_request ex_apply /\
  dom (c_option c_ls_response) (snd (ex_handler 0 ex_apply)).
Proof. exact blocking_case. Qed.

(** Before a handler is registered the client is told of a failure. *)
Theorem C80_blocking_unready {Q R S} (cq : codec Q) (cr : codec R) (s : S) id q trailing :
  lawful cq -> lawful cr -> dom c_u64 id -> dom cq q ->
  exists b, blocking_call cq cr None s (request_packet cq id q ++ trailing)
            = Done (s, Some b) /\ client_reads cr b id None.
Proof. exact (blocking_unready cq cr s id q trailing). Qed.
Print Assumptions C80_blocking_unready.

(** ** C80, servers that answer later *)
Theorem C80_async_taken {Q R} (cq : codec Q) (cr : codec R) s p id q calls ret :
  lawful cq -> dom c_u64 id -> dom cq q -> as_handler s = true ->
  exists s', async_step cq cr s (EvPacket p (request_packet cq id q) calls ret) = Next s' /\
    as_requests s' = as_requests s ++ [(p, id, q)].
Proof. exact (async_taken cq cr s p id q calls ret). Qed.
Print Assumptions C80_async_taken.

(** Whatever the handler does: the replies to a request go to the peer that sent it, carry its
    ID, and are what the handler gave, and a failure if it returned false. *)
Theorem C80_async_answers {Q R} (cq : codec Q) (cr : codec R) l s c p id q :
  lawful cq -> lawful cr -> Forall (real_event cr) l ->
  async_run cq cr async_init l = Next s -> as_requests s !! c = Some (p, id, q) ->
  exists v answers, returned cq 0 c l = Some v /\
    answers ≡ₚ (if v : bool then [] else [None]) ++ given cq 0 c l /\
    Forall2 (fun x r => fst x = p /\ client_reads cr (snd x) id r)
      (replies c (as_sent s)) answers.
Proof. exact (fun Lq Lr => async_answers cq cr Lq Lr l s c p id q). Qed.
Print Assumptions C80_async_answers.

(** A handler that follows the rule makes its client see one answer. *)
Theorem C80_async_once {Q R} (cq : codec Q) (cr : codec R) l s c p id q v :
  lawful cq -> lawful cr -> Forall (real_event cr) l ->
  async_run cq cr async_init l = Next s -> as_requests s !! c = Some (p, id, q) ->
  obeys_with cq c l v ->
  exists b, replies c (as_sent s) = [(p, b)] /\ client_reads cr b id v.
Proof. exact (fun Lq Lr => async_once cq cr Lq Lr l s c p id q v). Qed.
Print Assumptions C80_async_once.
Example C80_async_example :
  async_run c_ls_request c_ls_response async_init ex_events = Next ex_async /\
  map fst (as_requests ex_async) = [(1, 5); (2, 6); (2, 5)] /\
  obeys_with c_ls_request 0 ex_events (Some (inl [true; true])) /\
  obeys_with c_ls_request 1 ex_events None /\
  obeys_with c_ls_request 2 ex_events (Some (inr (inl tt))).
Proof. exact (conj ex_async_run ex_async_case). Qed.
Example C80_async_real : Forall (real_event c_ls_response) ex_events.
Proof. exact ex_events_real. Qed.

(** A server whose handler is there from the start survives all packets that can be read or
    are reported as malformed. *)
Theorem C80_async_survives {Q R} (cq : codec Q) (cr : codec R) l : lawful cq ->
  starts_registered l -> Forall (readable_event cq) l ->
  async_run cq cr async_init l <> Ended.
Proof. exact (fun Lq => async_survives cq cr Lq l). Qed.
Print Assumptions C80_async_survives.
Example C80_async_survives_example :
  starts_registered ex_events /\ Forall (readable_event c_ls_request) ex_events.
Proof. exact ex_async_survives_case. Qed.

(** ** C80, servers in front of a replicated state machine *)
Theorem C80_raft_taken {Q R S} (cq : codec Q) (cr : codec R) (h : S -> Q -> S * option R)
    s p id q leader accepted :
  lawful cq -> dom c_u64 id -> dom cq q ->
  exists s', raft_step cq cr h s (EvRaftPacket p (request_packet cq id q) leader accepted)
             = Next s' /\
    rf_requests s' = rf_requests s ++ [(p, id, request_packet cq id q)].
Proof. exact (raft_taken cq cr h s p id q leader accepted). Qed.
Print Assumptions C80_raft_taken.

(** A request waits without a reply, or was answered once: with a failure, or with what the
    handler makes of it in the state that the committed log before it leads to. *)
Theorem C80_raft_once {Q R S} (cq : codec Q) (cr : codec R) (h : S -> Q -> S * option R) s0
    l s c p id pkt :
  lawful cq -> lawful cr -> (forall st q, dom (c_option cr) (snd (h st q))) ->
  Forall real_packet l ->
  raft_run cq cr h (raft_init s0) l = Next s -> rf_requests s !! c = Some (p, id, pkt) ->
  (rf_pending s !! c = Some true /\ replies c (rf_sent s) = []) \/
  (rf_pending s !! c = Some false /\ exists b, replies c (rf_sent s) = [(p, b)] /\
    (client_reads cr b id None \/
     exists i st q rest, (i < rf_applied s)%nat /\ rf_log s !! i = Some (Some c, pkt) /\
       sm_replay cq cr h s0 (map snd (take i (rf_log s))) = Done st /\
       from_buffer (c_rpc_request cq) pkt = Ok (Some (id, q)) rest /\
       client_reads cr b id (snd (h st q)))).
Proof. exact (fun Lq Lr Hd => raft_once cq cr h s0 Lq Lr Hd l s c p id pkt). Qed.
Print Assumptions C80_raft_once.

(** What was committed was answered. *)
Theorem C80_raft_served {Q R S} (cq : codec Q) (cr : codec R) (h : S -> Q -> S * option R) s0
    l s i c pkt :
  Forall real_packet l -> raft_run cq cr h (raft_init s0) l = Next s ->
  (i < rf_applied s)%nat -> rf_log s !! i = Some (Some c, pkt) ->
  exists p id b, rf_requests s !! c = Some (p, id, pkt) /\ replies c (rf_sent s) = [(p, b)].
Proof. exact (raft_served cq cr h s0 l s i c pkt). Qed.
Print Assumptions C80_raft_served.
Example C80_raft_example :
  ls_run (raft_init 0) ex_raft_events = Next ex_raft /\
  map fst (rf_requests ex_raft) = [(1, 5); (2, 6); (1, 9); (3, 5); (4, 5)] /\
  rf_pending ex_raft = [false; false; false; false; true] /\
  map (fun c => map (decoded c_ls_response) (replies c (rf_sent ex_raft))) [0; 1; 2; 3; 4]%nat
  = [[Some (1, (5, Some (inr (inl tt))))]; [Some (2, (6, None))]; [Some (1, (9, None))];
     [Some (3, (5, None))]; []] /\
  rf_state ex_raft = 3 /\ (0 < rf_applied ex_raft)%nat /\
  rf_log ex_raft !! 0%nat = Some (Some 0%nat, pkt1).
Proof. exact (conj ex_raft_run ex_raft_case). Qed.
Example C80_raft_real : Forall real_packet ex_raft_events.
Proof. exact ex_raft_real. Qed.
Example C80_raft_handler st q : dom (c_option c_ls_response) (snd (ex_handler st q)).
Proof. exact (ex_handler_dom st q). Qed.

(** A replica can commit every log in which no entry makes the reader throw. *)
Theorem C80_replay_survives {Q R S} (cq : codec Q) (cr : codec R) (h : S -> Q -> S * option R)
    s log : lawful cq ->
  Forall (fun b => from_buffer (c_rpc_request cq) b <> Throw) log ->
  exists s', sm_replay cq cr h s log = Done s'.
Proof. exact (fun Lq => replay_survives cq cr h Lq s log). Qed.
Print Assumptions C80_replay_survives.
Example C80_replay_example :
  Forall (fun b => from_buffer (c_rpc_request c_ls_request) b <> Throw) [pkt1; pkt_cut; pkt2].
Proof. exact survives_case. Qed.

(** ** C80, what is false *)

(** Not every packet is answered: a malformed one is dropped, and its sender waits. *)
Theorem C80_answered_refuted : exists b,
  blocking_call c_ls_request c_ls_response (Some ex_handler) 0 b = Done (0, None) /\
  exists id rest, from_buffer c_u64 b = Ok (Some id) rest.
Proof. exact (ex_intro _ pkt_cut (conj silent_on_cut (ex_intro _ 9 (ex_intro _ _ eq_refl)))). Qed.
Print Assumptions C80_answered_refuted.

(** A handler that answers and then reports failure makes the server answer twice. *)
Theorem C80_once_refuted : exists l (s : @async ls_query),
  Forall (real_event c_ls_response) l /\
  async_run c_ls_request c_ls_response async_init l = Next s /\
  map (decoded c_ls_response) (replies 0 (as_sent s))
  = [Some (1, (5, Some (inr (inl tt)))); Some (1, (5, None))].
Proof. exact answered_twice. Qed.
Print Assumptions C80_once_refuted.

(** The sentinels, the coordinators and the PArSEC shards listen before their handler is
    registered: any request that arrives in between ends the process. *)
Theorem C80_early_request_refuted {Q R} (cq : codec Q) (cr : codec R) p id q calls ret :
  lawful cq -> dom c_u64 id -> dom cq q ->
  async_run cq cr async_init [EvPacket p (request_packet cq id q) calls ret] = Ended.
Proof. exact (early_ends cq cr p id q calls ret). Qed.
Print Assumptions C80_early_request_refuted.

(** A failure does not mean that the request was not carried out. *)
Theorem C80_failure_refuted : exists l s b,
  Forall real_packet l /\ ls_run (raft_init 0) l = Next s /\
  replies 0 (rf_sent s) = [(1, b)] /\ client_reads c_ls_response b 5 None /\
  rf_log s !! 0%nat = Some (Some 0%nat, pkt1) /\ rf_applied s = 1%nat /\
  rf_state s = fst (ex_handler 0 ex_apply) /\ rf_state s <> 0.
Proof. exact failed_but_done. Qed.
Print Assumptions C80_failure_refuted.

(** One packet of 41 bytes ends the leader of a locking shard when it is committed, and every
    replica whenever it commits the log. *)
Theorem C80_poison_refuted {R S} (cr : codec R) (h : S -> ls_query -> S * option R) (s0 : S) peer :
  exists s, raft_run c_ls_request cr h (raft_init s0) [EvRaftPacket peer pkt_poison true true]
            = Next s /\
    raft_run c_ls_request cr h s [EvCommit] = Ended /\
    forall st before after,
      sm_replay c_ls_request cr h st (before ++ pkt_poison :: after) = Over.
Proof. exact (poisoned cr h s0 peer). Qed.
Print Assumptions C80_poison_refuted.

(** ** C81 *)

(** What the shard's method gave is what the caller's callback gets. *)
Theorem C81_delivered_partial k r id : result_of k r -> dom c_u64 id ->
  exists o, client_reads c_rls_response
              (serialize_response c_rls_response id (to_response (FromShard r))) id o /\
            client_take k o = Done r.
Proof. exact (shard_told k r id). Qed.
Print Assumptions C81_delivered_partial.
Example C81_delivered_example :
  result_of CCommit (RStatus (Some ex_error)) /\ result_of CTryLock (RLock (inl [118])).
Proof. exact shard_told_case. Qed.

(** So it is with the range of tickets, or the error, that the ticket machine gave. *)
Theorem C81_tickets_delivered_partial id r : dom c_u64 id ->
  dom (c_option c_ticket_response) (Some r) ->
  exists o, client_reads c_ticket_response (serialize_response c_ticket_response id (Some r)) id o /\
    ticket_take o = Done r.
Proof. exact (ticket_told id r). Qed.
Print Assumptions C81_tickets_delivered_partial.
Example C81_tickets_delivered_example :
  dom c_u64 3 /\ dom (c_option c_ticket_response) (Some (inl (1000, 2000))).
Proof. exact ticket_told_case. Qed.

(** An internal error of the shard ends the process of the caller of every other method. *)
Theorem C81_internal_error_refuted k : k <> CGetTickets -> forall id, dom c_u64 id ->
  exists o, client_reads c_rls_response
              (serialize_response c_rls_response id (to_response InternalError)) id o /\
            client_take k o = Over.
Proof. exact (ends_caller k). Qed.
Print Assumptions C81_internal_error_refuted.

(** So does a shard that cannot replicate, and a ticket machine that is not the leader. *)
Theorem C81_refused_refuted k id : dom c_u64 id ->
  exists o, client_reads c_rls_response
              (serialize_response c_rls_response id (to_response Refused)) id o /\
            client_take k o = Over.
Proof. exact (refusal_ends_caller k id). Qed.
Print Assumptions C81_refused_refuted.
Theorem C81_tickets_refuted id : dom c_u64 id ->
  exists o, client_reads c_ticket_response (failure_response id) id o /\ ticket_take o = Over.
Proof. exact (ticket_ends_caller id). Qed.
Print Assumptions C81_tickets_refuted.
