(** Model of the packets of a TCP socket, src/util/network/tcp_socket.cpp, and of the
    thread that receives them, src/util/network/peer.cpp:67-79.

    Simplifications, valid for the whole file:
    - one direction of one connection. Between the two ends is the stream of bytes that
      TCP carries: what [write] took comes out of [read] in the same order;
    - a list of numbers says how the kernel serves the calls of [write] and [read], one
      number a call: how many bytes it is willing to move, 0 for an error. No call moves
      more than was asked for, and a call of [read] not more than there is. When the list
      is at its end the call does not return;
    - [memory] is the largest vector of bytes the process can allocate;
    - both machines are little-endian (the code copies the size as it is in memory). *)
From Coq Require Import NArith List Bool.
From Verif Require Import Base CodecModel.
Import ListNotations.
Open Scope N_scope.

(** How a loop of calls of [write] or [read] ends. *)
Inductive io_end := IoDone | IoError | IoWaits.

(** The two loops of tcp_socket::send, tcp_socket.cpp:64-72 and 75-84: the bytes that the
    kernel took, how it ended, and the answers left. *)
Fixpoint write_loop (ks : list N) (data : bytes) (total : N) : bytes * io_end * list N :=
  if total =? len data then ([], IoDone, ks)
  else match ks with
       | [] => ([], IoWaits, [])
       | k :: r =>
           let n := N.min k (len data - total) in
           if n =? 0 then ([], IoError, r)
           else let '(w, e, r') := write_loop r data (total + n) in
                (firstn (N.to_nat n) (skipn (N.to_nat total) data) ++ w, e, r')
       end.

(** tcp_socket::send, tcp_socket.cpp:60-88. [IoDone]: returned true. [IoError]: returned
    false. *)
Definition send (ks : list N) (pkt : bytes) : bytes * io_end * list N :=
  let '(w1, e1, ks1) := write_loop ks (le_bytes 8 (wrap64 (len pkt))) 0 in
  match e1 with
  | IoDone => let '(w2, e2, ks2) := write_loop ks1 pkt 0 in (w1 ++ w2, e2, ks2)
  | _ => (w1, e1, ks1)
  end.

(** The sending thread, peer.cpp:47-65: packet after packet until one fails. *)
Fixpoint send_all (ks : list N) (pkts : list bytes) : bytes * io_end * list N :=
  match pkts with
  | [] => ([], IoDone, ks)
  | p :: r =>
      let '(w1, e1, ks1) := send ks p in
      match e1 with
      | IoDone => let '(w2, e2, ks2) := send_all ks1 r in (w1 ++ w2, e2, ks2)
      | _ => (w1, e1, ks1)
      end
  end.

(** The two loops of tcp_socket::receive, tcp_socket.cpp:94-103 and 108-121. [wire] holds
    the bytes that wait to be read; [closed]: no more will come, so [read] returns 0 at
    its end, where it would otherwise block. [acc] is what the loop has read already (the
    first loop reads into an array at its position, the second appends to the packet).
    Result: what was read, how it ended, the bytes and answers left. *)
Fixpoint read_loop (ks : list N) (closed : bool) (wire : bytes) (want : N) (acc : bytes)
  : bytes * io_end * bytes * list N :=
  if want <=? len acc then (acc, IoDone, wire, ks)
  else match ks with
       | [] => (acc, IoWaits, wire, [])
       | k :: r =>
           match wire with
           | [] => if closed then (acc, IoError, [], r) else (acc, IoWaits, [], ks)
           | _ =>
               let n := N.min (N.min k (want - len acc)) (len wire) in
               if n =? 0 then (acc, IoError, wire, r)
               else read_loop r closed (skipn (N.to_nat n) wire) want
                      (acc ++ firstn (N.to_nat n) wire)
           end
       end.

(** How tcp_socket::receive ends: with a packet (true), with false, still in a call of
    [read], or with an exception from the allocation of the vector. *)
Inductive receive_end := Received (pkt : bytes) | NotReceived | Receiving | Threw.

(** tcp_socket::receive, tcp_socket.cpp:90-124. *)
Definition receive (memory : N) (ks : list N) (closed : bool) (wire : bytes)
  : receive_end * bytes * list N :=
  let '(sz, e1, wire1, ks1) := read_loop ks closed wire 8 [] in
  match e1 with
  | IoError => (NotReceived, wire1, ks1)
  | IoWaits => (Receiving, wire1, ks1)
  | IoDone =>
      let pkt_sz := le_value sz in
      (* tcp_socket.cpp:107: std::vector<std::byte>(pkt_sz) *)
      if memory <? pkt_sz then (Threw, wire1, ks1)
      else
        let '(pkt, e2, wire2, ks2) := read_loop ks1 closed wire1 pkt_sz [] in
        match e2 with
        | IoDone => (Received pkt, wire2, ks2)
        | IoError => (NotReceived, wire2, ks2)
        | IoWaits => (Receiving, wire2, ks2)
        end
  end.

(** How the receiving thread is after some turns of its loop: in the loop, ended because
    a receive returned false, in a call of [read], or ended by an exception, and with it
    the process (std::terminate). *)
Inductive thread_end := Looping | Stopped | Blocked | Terminated.

(** [turns] turns of the loop of peer::do_recv, peer.cpp:67-79: the packets given to the
    callback, and where the thread is. *)
Fixpoint receive_turns (memory : N) (turns : nat) (ks : list N) (closed : bool) (wire : bytes)
  : list bytes * thread_end :=
  match turns with
  | O => ([], Looping)
  | S n =>
      match receive memory ks closed wire with
      | (Received p, wire', ks') =>
          let '(ps, e) := receive_turns memory n ks' closed wire' in (p :: ps, e)
      | (NotReceived, _, _) => ([], Stopped)
      | (Receiving, _, _) => ([], Blocked)
      | (Threw, _, _) => ([], Terminated)
      end
  end.
