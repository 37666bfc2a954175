From stdpp Require Import base option list.
From Coq Require Import NArith Lia.
From Verif Require Import Base CodecModel CodecSpec CodecProofs TxModel MsgModel MsgProofs
  ServerModel ServerSpec ServerProofs ServerRaft.
Open Scope N_scope.

Lemma lawful_ls_request : lawful c_ls_request.
Proof. lawful_msg. Qed.
Lemma lawful_ls_response : lawful c_ls_response.
Proof. lawful_msg. Qed.
Lemma lawful_sentinel_request : lawful c_sentinel_request.
Proof. lawful_msg. Qed.
Lemma lawful_rls_response : lawful c_rls_response.
Proof. lawful_msg. Qed.
Lemma lawful_ticket_response : lawful c_ticket_response.
Proof. lawful_msg. Qed.

(** ** What the callers of a shard are told *)
Lemma shard_told k r id : result_of k r -> dom c_u64 id ->
  exists o, client_reads c_rls_response
              (serialize_response c_rls_response id (to_response (FromShard r))) id o /\
            client_take k o = Done r.
Proof.
  intros H D. exists (to_response (FromShard r)). split.
  - apply reads_response; [exact lawful_rls_response|exact D|].
    destruct k, r; cbn [result_of] in H; try contradiction; exact H.
  - destruct k, r; cbn [result_of] in H; try contradiction; reflexivity.
Qed.

Definition ex_error : N * option (N * bytes) := (1, Some (7, [107])).
Lemma shard_told_case :
  result_of CCommit (RStatus (Some ex_error)) /\ result_of CTryLock (RLock (inl [118])).
Proof. vm_compute. repeat split; try discriminate; repeat constructor. Qed.

Lemma ends_caller k : k <> CGetTickets -> forall id, dom c_u64 id ->
  exists o, client_reads c_rls_response
              (serialize_response c_rls_response id (to_response InternalError)) id o /\
            client_take k o = Over.
Proof.
  intros Hk id D. exists (to_response InternalError). split.
  - apply reads_response; [exact lawful_rls_response|exact D|]. vm_compute. reflexivity.
  - destruct k; try reflexivity. contradiction.
Qed.
Lemma refusal_ends_caller k id : dom c_u64 id ->
  exists o, client_reads c_rls_response
              (serialize_response c_rls_response id (to_response Refused)) id o /\
            client_take k o = Over.
Proof.
  intros D. exists None. split; [|reflexivity].
  apply reads_response; [exact lawful_rls_response|exact D|exact I].
Qed.
Lemma ticket_ends_caller id : dom c_u64 id ->
  exists o, client_reads c_ticket_response (failure_response id) id o /\ ticket_take o = Over.
Proof.
  intros D. exists None. split; [|reflexivity].
  by apply reads_failure; [exact lawful_ticket_response|].
Qed.

Lemma ticket_told id r : dom c_u64 id -> dom (c_option c_ticket_response) (Some r) ->
  exists o, client_reads c_ticket_response (serialize_response c_ticket_response id (Some r)) id o /\
    ticket_take o = Done r.
Proof.
  intros D Dr. exists (Some r). split; [|reflexivity].
  by apply reads_response; [exact lawful_ticket_response| |].
Qed.
Lemma ticket_told_case : dom c_u64 3 /\ dom (c_option c_ticket_response) (Some (inl (1000, 2000))).
Proof. vm_compute. repeat split. Qed.

(** ** A server for locking shards that counts the requests it handled *)
Notation ls_query := (N * (list (compact_tx) + (list bool + unit)))%type.
Notation ls_value := (list bool + (unit + unit))%type.
Definition ex_handler (n : N) (q : ls_query) : N * option ls_value :=
  (n + 1, match snd q with
          | inl l => Some (inl [true])
          | inr (inl _) => Some (inr (inl tt))
          | inr (inr _) => None
          end).
Lemma ex_handler_dom st q : dom (c_option c_ls_response) (snd (ex_handler st q)).
Proof. destruct q as [d [l|[l|u]]]; vm_compute; repeat constructor. Qed.

Definition ex_apply : ls_query := (77, inr (inl [true; false])).
Definition ex_discard : ls_query := (77, inr (inr tt)).
Lemma ex_apply_dom : dom c_ls_request ex_apply.
Proof. vm_compute. repeat constructor. Qed.
Definition pkt1 : bytes := request_packet c_ls_request 5 ex_apply.
Definition pkt2 : bytes := request_packet c_ls_request 6 ex_discard.
(** The header is there, the payload is not. *)
Definition pkt_cut : bytes := [9; 0; 0; 0; 0; 0; 0; 0; 1; 2].
(** The header, a transaction ID and a variant index that does not exist. *)
Definition pkt_poison : bytes := repeat 0 40 ++ [200].

Definition bytesb (l : bytes) : bool := forallb (fun b => b <? 256) l.
Lemma bytesb_ok l : bytesb l = true -> Forall is_byte l.
Proof.
  intros H. apply Forall_forall. intros x Hx.
  apply elem_of_list_In in Hx. unfold bytesb in H. rewrite forallb_forall in H.
  specialize (H x Hx). unfold is_byte. lia.
Qed.

Definition decoded {R} (cr : codec R) (x : N * bytes) : option (N * (N * option R)) :=
  match from_buffer (c_rpc_response cr) (snd x) with
  | Ok (Some r) _ => Some (fst x, r)
  | _ => None
  end.

(** *** Blocking *)
Lemma blocking_case : dom c_u64 5 /\ dom c_ls_request ex_apply /\
  dom (c_option c_ls_response) (snd (ex_handler 0 ex_apply)).
Proof. split; [vm_compute; reflexivity|]. split; [exact ex_apply_dom|apply ex_handler_dom]. Qed.
Lemma silent_on_cut :
  blocking_call c_ls_request c_ls_response (Some ex_handler) 0 pkt_cut = Done (0, None).
Proof. vm_compute. reflexivity. Qed.

(** *** Asynchronous *)
Definition ex_events : list (@async_event ls_value) :=
  [EvRegister; EvPacket 1 pkt1 [] true; EvPacket 2 pkt_cut [] true; EvPacket 2 pkt2 [] false;
   EvPacket 2 pkt1 [Some (inr (inl tt))] true; EvCallback 0 (Some (inl [true; true]))].
Definition ex_async : async :=
  match async_run c_ls_request c_ls_response async_init ex_events with
  | Next s => s
  | _ => async_init
  end.
Lemma ex_async_run :
  async_run c_ls_request c_ls_response async_init ex_events = Next ex_async.
Proof. vm_compute. reflexivity. Qed.
Lemma ex_events_real : Forall (real_event c_ls_response) ex_events.
Proof.
  unfold ex_events. repeat (apply List.Forall_cons || apply List.Forall_nil); cbn [real_event];
    try (split; [apply bytesb_ok; vm_compute; reflexivity|]); try exact I;
    try (repeat constructor).
Qed.
Lemma ex_async_case :
  map fst (as_requests ex_async) = [(1, 5); (2, 6); (2, 5)] /\
  obeys_with c_ls_request 0 ex_events (Some (inl [true; true])) /\
  obeys_with c_ls_request 1 ex_events None /\
  obeys_with c_ls_request 2 ex_events (Some (inr (inl tt))).
Proof.
  split; [vm_compute; reflexivity|]. unfold obeys_with.
  split; [left; vm_compute; split; reflexivity|].
  split; [right; vm_compute; repeat split|left; vm_compute; split; reflexivity].
Qed.
Lemma ex_async_survives_case :
  starts_registered ex_events /\ Forall (readable_event c_ls_request) ex_events.
Proof.
  split; [unfold ex_events, starts_registered; eauto|].
  unfold ex_events. repeat (apply List.Forall_cons || apply List.Forall_nil);
    cbn [readable_event]; try exact I; vm_compute; discriminate.
Qed.

(** A handler that answers and returns false. *)
Lemma answered_twice : exists l (s : @async ls_query),
  Forall (real_event c_ls_response) l /\
  async_run c_ls_request c_ls_response async_init l = Next s /\
  map (decoded c_ls_response) (replies 0 (as_sent s))
  = [Some (1, (5, Some (inr (inl tt)))); Some (1, (5, None))].
Proof.
  exists [EvRegister; EvPacket 1 pkt1 [Some (inr (inl tt))] false]. eexists. split.
  { repeat (apply List.Forall_cons || apply List.Forall_nil); cbn [real_event]; [exact I|].
    split; [apply bytesb_ok; vm_compute; reflexivity|repeat constructor]. }
  split; vm_compute; reflexivity.
Qed.

(** A request that arrives before the handler is registered. *)
Lemma early_ends {Q R} (cq : codec Q) (cr : codec R) p id q calls ret :
  lawful cq -> dom c_u64 id -> dom cq q ->
  async_run cq cr async_init [EvPacket p (request_packet cq id q) calls ret] = Ended.
Proof.
  intros L Di Dq. cbn [async_run async_step]. unfold deserialize_request, request_packet, encoding.
  rewrite <- (app_nil_r (make_buffer _)).
  by rewrite (from_buffer_rt _ (id, q) [] (lawful_request cq L) (conj Di Dq)).
Qed.

(** *** Raft *)
Lemma packets_real l :
  forallb (fun e => match e with EvRaftPacket _ b _ _ => bytesb b | _ => true end) l = true ->
  Forall real_packet l.
Proof.
  intros H. apply Forall_forall. intros e He. apply elem_of_list_In in He.
  rewrite forallb_forall in H. specialize (H e He).
  destruct e; cbn [real_packet]; try exact I. by apply bytesb_ok.
Qed.
Definition ex_raft_events : list raft_event :=
  [EvRaftPacket 1 pkt1 true true; EvRaftPacket 2 pkt2 true true; EvForeign pkt1;
   EvRaftPacket 1 pkt_cut true true; EvRaftPacket 3 pkt1 false true; EvRaftPacket 3 [1; 2] true true;
   EvCommit; EvCommit; EvCommit; EvCommit; EvRaftPacket 4 pkt1 true true].
Notation ls_run := (raft_run c_ls_request c_ls_response ex_handler).
Definition ex_raft : raft :=
  match ls_run (raft_init 0) ex_raft_events with Next s => s | _ => raft_init 0 end.
Lemma ex_raft_run : ls_run (raft_init 0) ex_raft_events = Next ex_raft.
Proof. vm_compute. reflexivity. Qed.
Lemma ex_raft_real : Forall real_packet ex_raft_events.
Proof. apply packets_real. vm_compute. reflexivity. Qed.
Lemma ex_raft_case :
  map fst (rf_requests ex_raft) = [(1, 5); (2, 6); (1, 9); (3, 5); (4, 5)] /\
  rf_pending ex_raft = [false; false; false; false; true] /\
  map (fun c => map (decoded c_ls_response) (replies c (rf_sent ex_raft))) [0; 1; 2; 3; 4]%nat
  = [[Some (1, (5, Some (inr (inl tt))))]; [Some (2, (6, None))]; [Some (1, (9, None))];
     [Some (3, (5, None))]; []] /\
  rf_state ex_raft = 3 /\ (0 < rf_applied ex_raft)%nat /\
  rf_log ex_raft !! 0%nat = Some (Some 0%nat, pkt1).
Proof. vm_compute. repeat split. lia. Qed.

(** A request that failed is carried out afterwards. *)
Lemma failed_but_done : exists l s b,
  Forall real_packet l /\ ls_run (raft_init 0) l = Next s /\
  replies 0 (rf_sent s) = [(1, b)] /\ client_reads c_ls_response b 5 None /\
  rf_log s !! 0%nat = Some (Some 0%nat, pkt1) /\ rf_applied s = 1%nat /\
  rf_state s = fst (ex_handler 0 ex_apply) /\ rf_state s <> 0.
Proof.
  exists [EvRaftPacket 1 pkt1 true true; EvCancel 0; EvCommit]. do 2 eexists. split.
  { apply packets_real. vm_compute. reflexivity. }
  split; [vm_compute; reflexivity|]. split; [vm_compute; reflexivity|].
  split; [eexists; vm_compute; reflexivity|].
  split; [vm_compute; reflexivity|]. split; [reflexivity|]. split; [reflexivity|discriminate].
Qed.

(** One packet of a stranger ends the leader when it is committed, and every replica that
    ever commits the log, now or after a restart. *)
Lemma poison_throws : from_buffer (c_rpc_request c_ls_request) pkt_poison = Throw.
Proof. vm_compute. reflexivity. Qed.
Lemma poisoned {R S} (cr : codec R) (h : S -> ls_query -> S * option R) (s0 : S) peer :
  exists s, raft_run c_ls_request cr h (raft_init s0) [EvRaftPacket peer pkt_poison true true]
            = Next s /\
    raft_run c_ls_request cr h s [EvCommit] = Ended /\
    forall st before after,
      sm_replay c_ls_request cr h st (before ++ pkt_poison :: after) = Over.
Proof.
  eexists. split; [vm_compute; reflexivity|]. split.
  - cbn [raft_run raft_step rf_log rf_applied lookup list_lookup rf_state].
    unfold sm_commit, blocking_call, deserialize_request.
    set (P := from_buffer _ _). replace P with (Throw (A := option (N * ls_query)));
      [reflexivity|]. subst P. symmetry. exact poison_throws.
  - intros. apply replay_poisoned. exact poison_throws.
Qed.

Lemma survives_case : Forall (fun b => from_buffer (c_rpc_request c_ls_request) b <> Throw)
  [pkt1; pkt_cut; pkt2].
Proof. repeat constructor; vm_compute; discriminate. Qed.

(** Well-formed requests are taken. *)
Lemma raft_taken {Q R S} (cq : codec Q) (cr : codec R) (h : S -> Q -> S * option R) s p id q ld ac :
  lawful cq -> dom c_u64 id -> dom cq q ->
  exists s', raft_step cq cr h s (EvRaftPacket p (request_packet cq id q) ld ac) = Next s' /\
    rf_requests s' = rf_requests s ++ [(p, id, request_packet cq id q)].
Proof.
  intros L Di Dq. cbn [raft_step]. rewrite failure_made.
  assert (from_buffer (c_rpc_request cq) (request_packet cq id q) = Ok (Some (id, q)) (Dst [] true))
    as E.
  { unfold request_packet, encoding. rewrite <- (app_nil_r (make_buffer _)).
    by rewrite (from_buffer_rt _ (id, q) [] (lawful_request cq L) (conj Di Dq)). }
  destruct (request_header cq _ id q _ L E) as [s1 ->].
  destruct (ld && ac); (eexists; split; [reflexivity|reflexivity]).
Qed.
Lemma async_taken {Q R} (cq : codec Q) (cr : codec R) s p id q calls ret :
  lawful cq -> dom c_u64 id -> dom cq q -> as_handler s = true ->
  exists s', async_step cq cr s (EvPacket p (request_packet cq id q) calls ret) = Next s' /\
    as_requests s' = as_requests s ++ [(p, id, q)].
Proof.
  intros L Di Dq Hh. cbn [async_step]. unfold deserialize_request, request_packet, encoding.
  rewrite <- (app_nil_r (make_buffer _)).
  rewrite (from_buffer_rt _ (id, q) [] (lawful_request cq L) (conj Di Dq)), Hh.
  eexists. split; reflexivity.
Qed.
