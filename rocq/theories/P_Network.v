(** Properties C71, C72 and C73: packets between machines. *)
From stdpp Require Import base option list.
From Coq Require Import NArith Lia.
From Verif Require Import Base CodecModel SocketModel SocketSpec SocketProofs.
From Verif Require DispatchModel DispatchSpec DispatchProofs DispatchExamples.
From Verif Require PeerModel PeerSpec PeerProofs PeerExamples.
Open Scope N_scope.

(** * C71: packets over a connection *)

(** C71: a send that returns true has written exactly the packet's frame, and one that
    fails has written a proper part of it, however the kernel splits the writes. *)
Theorem C71_send_writes_frame ks pkt w e ks' : len pkt < two64 -> send ks pkt = (w, e, ks') ->
  exists rest, frame pkt = w ++ rest /\ (e = IoDone <-> rest = []).
Proof. exact (send_spec ks pkt w e ks'). Qed.
Print Assumptions C71_send_writes_frame.

(** C71: whatever was sent until the first failure, whatever the kernel does with the
    writes and the reads, and wherever the connection ends: the receiver gets a prefix of
    the packets that were sent, whole, in order, none twice. *)
Theorem C71_prefix_delivered mem ps wks w e wks' turns ks closed qs t :
  mem < two64 -> Forall (fits mem) ps -> send_all wks ps = (w, e, wks') ->
  receive_turns mem turns ks closed w = (qs, t) ->
  t <> Terminated /\ qs `prefix_of` ps /\ frames qs `prefix_of` w.
Proof. exact (delivered_prefix mem ps wks w e wks' turns ks closed qs t). Qed.
Print Assumptions C71_prefix_delivered.

(** C71: if all the packets were sent and the reads succeed, the receiver gets them all;
    then it waits, or ends if the connection was closed. *)
Theorem C71_all_delivered mem ps wks w wks' turns ks closed qs t :
  mem < two64 -> Forall (fits mem) ps -> send_all wks ps = (w, IoDone, wks') ->
  no_error ks -> wire_size ps < len ks -> (length ps < turns)%nat ->
  receive_turns mem turns ks closed w = (qs, t) ->
  qs = ps /\ t = (if closed then Stopped else Blocked).
Proof. exact (delivered_all mem ps wks w wks' turns ks closed qs t). Qed.
Print Assumptions C71_all_delivered.

(** C71: if the bytes stop anywhere, the receiver gets all the packets whose frames are
    complete, and no part of the next. *)
Theorem C71_complete_frames_delivered mem ps w rest turns ks closed qs t :
  mem < two64 -> Forall (fits mem) ps -> frames ps = w ++ rest ->
  no_error ks -> len w < len ks -> (length ps < turns)%nat ->
  receive_turns mem turns ks closed w = (qs, t) ->
  t = (if closed then Stopped else Blocked) /\ qs `prefix_of` ps /\ frames qs `prefix_of` w /\
  forall qs', qs' `prefix_of` ps -> frames qs' `prefix_of` w -> qs' `prefix_of` qs.
Proof. exact (delivered_most mem ps w rest turns ks closed qs t). Qed.
Print Assumptions C71_complete_frames_delivered.

(** Three packets, one of them empty; writes and reads of odd sizes; then the same cut in
    the middle of the third. *)
Example C71_example :
  let ps := [[7; 8; 9]; []; [1; 2]] in
  let '(w, e, _) := send_all [3; 100; 1; 1; 5; 6; 7; 20; 20; 20] ps in
  e = IoDone /\ w = frames ps /\ len w = 29 /\ Forall (fits 1000) ps /\
  receive_turns 1000 5 (repeat 3 40) true w = (ps, Stopped) /\
  receive_turns 1000 5 (repeat 3 40) false (firstn 28 w) = ([[7; 8; 9]; []], Blocked) /\
  no_error (repeat 3 40) /\ wire_size ps < len (repeat 3 40).
Proof.
  vm_compute. split; [reflexivity|]. split; [reflexivity|]. split; [reflexivity|].
  split; [repeat constructor; discriminate|]. split; [reflexivity|]. split; [reflexivity|].
  split; [repeat constructor; discriminate|reflexivity].
Qed.

(** Not true of any bytes from a peer: eight bytes of ones, from anyone who can connect,
    end the receiving process: the vector of that size cannot be made, and nothing catches
    the exception in the receiving thread. *)
Theorem C71_eight_bytes_end_process_refuted mem turns more closed ks :
  mem < two64 - 1 -> (0 < turns)%nat -> no_error ks -> 8 < len ks ->
  receive_turns mem turns ks closed (repeat 255 8 ++ more) = ([], Terminated).
Proof. exact (eight_bytes mem turns more closed ks). Qed.
Print Assumptions C71_eight_bytes_end_process_refuted.

Example C71_eight_bytes_example : receive_turns 1000 1 (repeat 2 9) false (repeat 255 8) = ([], Terminated).
Proof. vm_compute. reflexivity. Qed.

(** * C72: the connection manager *)
Import DispatchModel DispatchSpec.

(** C72: what arrived on a connection is what the handler threads were given of it and
    what waits, in the order of arrival: nothing lost, doubled, invented or mixed up. *)
Theorem C72_nothing_lost n l s a id : N.of_nat (adds l) <= two64 ->
  g_run (manager_init n) l = Some s -> peer_id_of s a = Some id ->
  received_from s a = taken_of s id ++ queued s a.
Proof. exact (DispatchProofs.nothing_lost n l s a id). Qed.
Print Assumptions C72_nothing_lost.

(** C72: the handler is called with every packet its thread was given, once, in order. *)
Theorem C72_handled_in_order n l s t : N.of_nat (adds l) <= two64 ->
  g_run (manager_init n) l = Some s ->
  by_thread t (g_taken s) = by_thread t (g_handled s) ++ in_work s t.
Proof. exact (DispatchProofs.handled_in_order n l s t). Qed.
Print Assumptions C72_handled_in_order.

(** C72: every packet given to a handler came over the connection whose ID it carries ... *)
Theorem C72_sender_is_named n l s t m : N.of_nat (adds l) <= two64 ->
  g_run (manager_init n) l = Some s -> (t, m) ∈ g_taken s ->
  exists a, peer_id_of s a = Some (m_peer_id m) /\ m_pkt m ∈ received_from s a.
Proof. exact (DispatchProofs.taken_came n l s t m). Qed.
Print Assumptions C72_sender_is_named.

(** ... no two connections have the same ID ... *)
Theorem C72_ids_differ n l s a b id : N.of_nat (adds l) <= two64 ->
  g_run (manager_init n) l = Some s -> peer_id_of s a = Some id -> peer_id_of s b = Some id -> a = b.
Proof. exact (DispatchProofs.ids_differ n l s a b id). Qed.
Print Assumptions C72_ids_differ.

(** ... and an answer goes to the connection the packet came over. *)
Theorem C72_answers_go_back n l s m b a : N.of_nat (adds l) <= two64 ->
  g_run (manager_init n) l = Some s -> (m, b, Some a) ∈ g_answers s ->
  peer_id_of s a = Some (m_peer_id m) /\ m_pkt m ∈ received_from s a.
Proof. exact (DispatchProofs.answers_back n l s m b a). Qed.
Print Assumptions C72_answers_go_back.

(** C72: while the manager runs and a packet waits, some handler thread is awake or about
    to be woken, and will find the packet. *)
Theorem C72_no_lost_wakeup n l s q ms : N.of_nat (adds l) <= two64 ->
  g_run (manager_init n) l = Some s -> g_running s = true -> (0 < n)%nat ->
  g_queues s !! q = Some ms -> ms <> [] ->
  g_data s = true /\
  ((0 < g_notify s)%nat \/ exists t h, g_handlers s !! t = Some h /\ awake h = true).
Proof. exact (DispatchProofs.not_overslept n l s q ms). Qed.
Print Assumptions C72_no_lost_wakeup.

(** C72: no connection starves the others: as many returns of handle_messages as there are
    packets waiting on a connection hand them all out, however much arrives elsewhere. *)
Theorem C72_no_starvation n l1 s l2 s' a id : N.of_nat (adds l1 + adds l2) <= two64 ->
  g_run (manager_init n) l1 = Some s -> g_run s l2 = Some s' -> peer_id_of s a = Some id ->
  (length (queued s a) <= all_collects s l2)%nat ->
  (length (received_from s a) <= length (taken_of s' id))%nat.
Proof. exact (DispatchProofs.bounded_wait n l1 s l2 s' a id). Qed.
Print Assumptions C72_no_starvation.

Example C72_example : exists s, g_run (manager_init 2) DispatchExamples.working = Some s /\
  peer_id_of s 0 = Some 0 /\ peer_id_of s 1 = Some 1 /\
  received_from s 0 = [[1]; [2]] /\ received_from s 1 = [[3]; [4]] /\
  taken_of s 0 = [[1]; [2]] /\ taken_of s 1 = [[3]; [4]] /\
  by_thread 0 (g_taken s) = [Msg [3] 1; Msg [1] 0] /\
  g_answers s = [(Msg [4] 1, [9], Some 1%nat)] /\ g_running s = true.
Proof. exact DispatchExamples.working_case. Qed.

Example C72_waiting_example : exists s, g_run (manager_init 2) DispatchExamples.waiting = Some s /\
  g_running s = true /\ peer_id_of s 0 = Some 0 /\ queued s 0 = [[1]; [2]] /\
  g_queues s !! 0%nat = Some [Msg [3] 1] /\
  exists s', g_run s (drop 13 DispatchExamples.working) = Some s' /\
    (all_collects s (drop 13 DispatchExamples.working) = 2)%nat.
Proof. exact DispatchExamples.waiting_case. Qed.

(** C72: send_to_one picks a connected peer, and fails only if there is none, whatever the
    random offset. *)
Theorem C72_send_to_one c off :
  match send_to_one c off with
  | Some i => c !! i = Some true
  | None => forall i, c !! i <> Some true
  end.
Proof. exact (DispatchProofs.send_to_one_spec c off). Qed.
Print Assumptions C72_send_to_one.

Example C72_send_to_one_example :
  send_to_one [false; true; false; true] 6 = Some 3%nat /\ send_to_one [false; false] 1 = None.
Proof. vm_compute. auto. Qed.

(** Not true: close() does not always end the handler threads. Its notification is lost on
    a thread that has looked at m_running and is not asleep yet, so that joining it waits
    for ever. *)
Theorem C72_close_hangs_refuted : exists l s, g_run (manager_init 1) l = Some s /\
  g_closing s = 4%nat /\ stuck s /\ g_handlers s = [HAsleep].
Proof. exact (ex_intro _ _ DispatchExamples.hanging_case). Qed.
Print Assumptions C72_close_hangs_refuted.

(** * C73: a connection that is kept up *)
Import PeerModel PeerSpec.

(** C73: the packets written are some of those given to send(), each once, in order, and
    those of a later connection come later. The assertion in the sending thread holds. *)
Theorem C73_sent_in_order a u l s : p_run (peer_init a u) l = Some s ->
  map snd (p_sent s) `sublist_of` p_pushed s /\ by_connection (p_sent s).
Proof. exact (PeerProofs.sent_in_order a u l s). Qed.
Print Assumptions C73_sent_in_order.

Theorem C73_no_assertion_fails a u l s : p_run (peer_init a u) l = Some s -> p_assert s = false.
Proof. exact (PeerProofs.no_assertion a u l s). Qed.
Print Assumptions C73_no_assertion_fails.

(** C73: a failure is never overlooked: when no thread of a reconnecting peer that is not
    shut down can go on, it has a live connection and nothing left to send. *)
Theorem C73_failure_is_noticed u l s : p_run (peer_init true u) l = Some s -> at_rest s ->
  p_shutter s = XOff -> connected_idle s.
Proof. exact (PeerProofs.rest_reconnecting u l s). Qed.
Print Assumptions C73_failure_is_noticed.

(** C73: a peer that may not reconnect rests connected, or with everything ended. *)
Theorem C73_single_connection u l s : p_run (peer_init false u) l = Some s -> at_rest s ->
  p_shutter s = XOff ->
  connected_idle s \/
  (p_shut s = true /\ p_sender s = SEnd /\ p_receiver s = REnd /\ p_keeper s = KDone /\ p_sock s = None).
Proof. exact (PeerProofs.rest_once u l s). Qed.
Print Assumptions C73_single_connection.

(** C73: shutdown() ends all three threads and the connection, but for one case: it waits
    for a reconnecting thread that sleeps beside a live connection. *)
Theorem C73_shutdown_ends_partial a u l s : p_run (peer_init a u) l = Some s -> at_rest s ->
  p_shutter s <> XOff ->
  (p_shutter s = XDone /\ p_sender s = SEnd /\ p_receiver s = REnd /\ p_keeper s = KDone /\ p_sock s = None) \/
  (p_shutter s = XJoin /\ p_keeper s = KAsleep /\ alive s = true).
Proof. exact (PeerProofs.rest_shutdown a u l s). Qed.
Print Assumptions C73_shutdown_ends_partial.

Example C73_example : exists s s', p_run (peer_init true true) PeerExamples.living = Some s /\
  p_sent s = [(0%nat, [1]); (0%nat, [2]); (1%nat, [4])] /\
  p_pushed s = [[1]; [2]; [3]; [4]] /\
  p_run s PeerExamples.ending = Some s' /\ at_rest s' /\ p_shutter s' = XDone.
Proof. exact PeerExamples.living_case. Qed.

Example C73_single_connection_example : exists s,
  p_run (peer_init false true) PeerExamples.giving_up = Some s /\ at_rest s /\
  p_shutter s = XOff /\ p_sock s = None.
Proof. exact PeerExamples.giving_up_case. Qed.

(** Not true: that case occurs. The thread has found nothing to do and is about to sleep
    when shutdown() sets the flag and notifies, neither under the mutex. *)
Theorem C73_shutdown_hangs_refuted : exists l s, p_run (peer_init true true) l = Some s /\
  at_rest s /\ p_shutter s = XJoin /\ p_shut s = true.
Proof. exact (ex_intro _ _ PeerExamples.hanging_case). Qed.
Print Assumptions C73_shutdown_hangs_refuted.

(** Not true: that a peer settles after a failure. The network fails once; closing the old
    socket makes the receiving thread ask for a new connection a second time, after the
    request was cleared, and so on for ever. *)
Theorem C73_reconnects_forever_refuted n : exists l s,
  p_run (peer_init true true) l = Some s /\ breaks l = 1%nat /\ (n <= connections s)%nat /\
  p_shut s = false.
Proof. exact (PeerExamples.reconnects_forever n). Qed.
Print Assumptions C73_reconnects_forever_refuted.

(** Not true: that a packet which send() accepted is sent once the peer is connected: what
    waits when a connection is replaced is dropped. *)
Theorem C73_packets_dropped_refuted : exists l s, p_run (peer_init true true) l = Some s /\
  at_rest s /\ connected_idle s /\ p_shut s = false /\ p_pushed s = [[1]] /\ p_sent s = [].
Proof. exact (ex_intro _ _ PeerExamples.losing_case). Qed.
Print Assumptions C73_packets_dropped_refuted.
