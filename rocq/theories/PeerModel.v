(** Model of a peer, src/util/network/peer.cpp: its sending, receiving and reconnecting
    threads, and shutdown().

    Simplifications, valid for the whole file:
    - a packet is a list of bytes; how it travels over a connection is C71, and the
      waiting of the sending thread in the queue is C53: here it waits while the queue is
      empty and its flag m_wake is false;
    - the connections that the socket has had are numbered; each is alive until the
      network or the other end breaks it, or until the socket disconnects. A write to a
      broken connection may fail or not (the kernel may still buffer it); a read on a
      broken one ends; on a live one it waits for packets;
    - the steps are the accesses to the shared state. The reconnecting thread evaluates
      the predicate of its condition variable with the mutex m_reconnect_mut and releases
      it when it falls asleep: two steps, between which it holds the mutex. It may wake
      spuriously;
    - peer::send looks at m_shut_down and pushes in one step, and the three statements
      that start the threads again (peer.cpp:101-103) are one step;
    - shutdown() is called at most once, and not while the object is constructed. *)
From stdpp Require Import base option list.
From Coq Require Import NArith.
From Verif Require Import Base.

(** The sending thread, peer.cpp:46-65. *)
Inductive sender :=
| STop                   (* at [while(m_running)] *)
| SPop                   (* in m_send_queue.pop *)
| SSend (pkt : bytes)    (* in m_sock->send *)
| SFail                  (* about to call signal_reconnect *)
| SNotify                (* about to notify *)
| SEnd.                  (* ended, may be joined *)

(** The receiving thread, peer.cpp:67-79. *)
Inductive receiver := RTop | RRead | RFail | RNotify | REnd.

(** The steps of close(), peer.cpp:116-129. *)
Inductive closing := CRunning | CDisconnect | CClear | CJoinSend | CJoinRecv | CReset.

(** The reconnecting thread, peer.cpp:81-114. *)
Inductive keeper :=
| KTop                   (* at [while(!m_shut_down)], line 83 *)
| KCheck                 (* about to lock and to evaluate the predicate, lines 85-88 *)
| KChecked               (* holds the mutex, found the predicate false *)
| KAsleep                (* in the wait *)
| KGo                    (* has cleared m_reconnect, line 91 *)
| KClose (c : closing)   (* in close(), line 95 *)
| KConnect               (* at the inner loop, lines 96-102 *)
| KAfter                 (* after it, line 103 *)
| KGive (c : closing)    (* the other branch: in close(), line 110 *)
| KClear                 (* its last clear, line 111 *)
| KDone.

(** The thread that calls shutdown(), peer.cpp:32-39. *)
Inductive shutter := XOff | XNotify | XJoin | XClose (c : closing) | XDone.

Record peer := Peer {
  p_attempt : bool;              (* m_attempt_reconnect *)
  p_shut : bool;                 (* m_shut_down *)
  p_running : bool;              (* m_running *)
  p_flag : bool;                 (* m_reconnect *)
  p_queue : list bytes;          (* m_send_queue *)
  p_wake : bool;                 (* its flag m_wake *)
  p_sock : option nat;           (* the connection the socket has, if it has one *)
  p_conns : list bool;           (* the connections so far, and whether they are alive *)
  p_sender : sender;
  p_receiver : receiver;
  p_keeper : keeper;
  p_shutter : shutter;
  p_pushed : list bytes;         (* ghost: packets that peer::send accepted *)
  p_sent : list (nat * bytes);   (* ghost: packets written, and to which connection *)
  p_assert : bool                (* ghost: the assertion of peer.cpp:51 failed *)
}.

(** The constructor, peer.cpp:12-21. [up]: whether the socket is connected (connection
    managers also add sockets that could not connect, connection_manager.cpp:115-122). *)
Definition peer_init (attempt up : bool) : peer :=
  Peer attempt false true false [] false (if up then Some 0%nat else None)
    (if up then [true] else []) STop RTop KTop XOff [] [] false.

Definition set_shut (s : peer) (b : bool) : peer :=
  Peer (p_attempt s) b (p_running s) (p_flag s) (p_queue s) (p_wake s) (p_sock s) (p_conns s)
    (p_sender s) (p_receiver s) (p_keeper s) (p_shutter s) (p_pushed s) (p_sent s) (p_assert s).
Definition set_running (s : peer) (b : bool) : peer :=
  Peer (p_attempt s) (p_shut s) b (p_flag s) (p_queue s) (p_wake s) (p_sock s) (p_conns s)
    (p_sender s) (p_receiver s) (p_keeper s) (p_shutter s) (p_pushed s) (p_sent s) (p_assert s).
Definition set_flag (s : peer) (b : bool) : peer :=
  Peer (p_attempt s) (p_shut s) (p_running s) b (p_queue s) (p_wake s) (p_sock s) (p_conns s)
    (p_sender s) (p_receiver s) (p_keeper s) (p_shutter s) (p_pushed s) (p_sent s) (p_assert s).
Definition set_queue (s : peer) (q : list bytes) (w : bool) : peer :=
  Peer (p_attempt s) (p_shut s) (p_running s) (p_flag s) q w (p_sock s) (p_conns s)
    (p_sender s) (p_receiver s) (p_keeper s) (p_shutter s) (p_pushed s) (p_sent s) (p_assert s).
Definition set_sock (s : peer) (c : option nat) (l : list bool) : peer :=
  Peer (p_attempt s) (p_shut s) (p_running s) (p_flag s) (p_queue s) (p_wake s) c l
    (p_sender s) (p_receiver s) (p_keeper s) (p_shutter s) (p_pushed s) (p_sent s) (p_assert s).
Definition set_sender (s : peer) (t : sender) : peer :=
  Peer (p_attempt s) (p_shut s) (p_running s) (p_flag s) (p_queue s) (p_wake s) (p_sock s) (p_conns s)
    t (p_receiver s) (p_keeper s) (p_shutter s) (p_pushed s) (p_sent s) (p_assert s).
Definition set_receiver (s : peer) (t : receiver) : peer :=
  Peer (p_attempt s) (p_shut s) (p_running s) (p_flag s) (p_queue s) (p_wake s) (p_sock s) (p_conns s)
    (p_sender s) t (p_keeper s) (p_shutter s) (p_pushed s) (p_sent s) (p_assert s).
Definition set_keeper (s : peer) (t : keeper) : peer :=
  Peer (p_attempt s) (p_shut s) (p_running s) (p_flag s) (p_queue s) (p_wake s) (p_sock s) (p_conns s)
    (p_sender s) (p_receiver s) t (p_shutter s) (p_pushed s) (p_sent s) (p_assert s).
Definition set_shutter (s : peer) (t : shutter) : peer :=
  Peer (p_attempt s) (p_shut s) (p_running s) (p_flag s) (p_queue s) (p_wake s) (p_sock s) (p_conns s)
    (p_sender s) (p_receiver s) (p_keeper s) t (p_pushed s) (p_sent s) (p_assert s).
Definition log_pushed (s : peer) (x : bytes) : peer :=
  Peer (p_attempt s) (p_shut s) (p_running s) (p_flag s) (p_queue s) (p_wake s) (p_sock s) (p_conns s)
    (p_sender s) (p_receiver s) (p_keeper s) (p_shutter s) (p_pushed s ++ [x]) (p_sent s) (p_assert s).
Definition log_sent (s : peer) (x : nat * bytes) : peer :=
  Peer (p_attempt s) (p_shut s) (p_running s) (p_flag s) (p_queue s) (p_wake s) (p_sock s) (p_conns s)
    (p_sender s) (p_receiver s) (p_keeper s) (p_shutter s) (p_pushed s) (p_sent s ++ [x]) (p_assert s).
Definition fail_assert (s : peer) : peer :=
  Peer (p_attempt s) (p_shut s) (p_running s) (p_flag s) (p_queue s) (p_wake s) (p_sock s) (p_conns s)
    (p_sender s) (p_receiver s) (p_keeper s) (p_shutter s) (p_pushed s) (p_sent s) true.

(** The socket has a connection and it is alive. *)
Definition alive (s : peer) : bool :=
  match p_sock s with
  | Some c => match p_conns s !! c with Some b => b | None => false end
  | None => false
  end.

(** Whether the reconnecting thread holds m_reconnect_mut. *)
Definition locked (s : peer) : bool := match p_keeper s with KChecked => true | _ => false end.

(** notify_one of m_reconnect_cv. *)
Definition notify (s : peer) : peer :=
  match p_keeper s with KAsleep => set_keeper s KCheck | _ => s end.

(** A step of the sending thread. [ok]: what the socket's send returns. *)
Definition sender_step (s : peer) (ok : bool) : option peer :=
  match p_sender s with
  | STop => Some (set_sender s (if p_running s then SPop else SEnd))
  | SPop =>
      (* peer.cpp:49-53, blocking_queue.hpp:50-68 *)
      match p_queue s with
      | pkt :: r => Some (set_sender (set_queue s r (match r with [] => false | _ => true end)) (SSend pkt))
      | [] => if p_wake s
              then Some (set_sender (if p_running s then fail_assert s else s) SEnd)
              else None
      end
  | SSend pkt =>
      (* peer.cpp:55-61 *)
      match p_sock s, ok with
      | Some c, true => Some (set_sender (log_sent s (c, pkt)) STop)
      | None, true => None
      | _, false => if alive s then None else Some (set_sender s SFail)
      end
  | SFail =>
      (* signal_reconnect, peer.cpp:131-135 *)
      if locked s then None else Some (set_sender (set_flag s true) SNotify)
  | SNotify => Some (set_sender (notify s) SEnd)
  | SEnd => None
  end.

(** A step of the receiving thread, but for the arrival of a packet. *)
Definition receiver_step (s : peer) : option peer :=
  match p_receiver s with
  | RTop => Some (set_receiver s (if p_running s then RRead else REnd))
  | RRead => if alive s then None else Some (set_receiver s RFail)
  | RFail => if locked s then None else Some (set_receiver (set_flag s true) RNotify)
  | RNotify => Some (set_receiver (notify s) REnd)
  | REnd => None
  end.

(** A packet arrives, peer.cpp:70-76. *)
Definition arrive (s : peer) : option peer :=
  match p_receiver s with
  | RRead => if alive s then Some (set_receiver s RTop) else None
  | _ => None
  end.

(** tcp_socket::disconnect, tcp_socket.cpp:48-55. *)
Definition disconnect (s : peer) : peer :=
  match p_sock s with
  | Some c => set_sock s None (<[c := false]> (p_conns s))
  | None => s
  end.

(** A step of close(), peer.cpp:116-129: the new state, and the next step or the end. *)
Definition close_step (s : peer) (c : closing) : option (peer * option closing) :=
  match c with
  | CRunning => Some (set_running s false, Some CDisconnect)
  | CDisconnect => Some (disconnect s, Some CClear)
  | CClear => Some (set_queue s [] true, Some CJoinSend)
  | CJoinSend => match p_sender s with SEnd => Some (s, Some CJoinRecv) | _ => None end
  | CJoinRecv => match p_receiver s with REnd => Some (s, Some CReset) | _ => None end
  | CReset => Some (set_queue s (p_queue s) false, None)
  end.

(** A step of the reconnecting thread. [ok]: whether the socket could connect. *)
Definition keeper_step (s : peer) (ok : bool) : option peer :=
  match p_keeper s with
  | KTop => Some (set_keeper s (if p_shut s then KDone else KCheck))
  | KCheck =>
      (* peer.cpp:84-92 *)
      if p_flag s || p_shut s then Some (set_keeper (set_flag s false) KGo)
      else Some (set_keeper s KChecked)
  | KChecked => Some (set_keeper s KAsleep)
  | KAsleep => None
  | KGo =>
      (* peer.cpp:93-96, 108-109 *)
      Some (if p_shut s then set_keeper s KDone
            else if p_attempt s then set_keeper s (KClose CRunning)
            else set_keeper (set_shut s true) (KGive CRunning))
  | KClose c =>
      match close_step s c with
      | Some (s', Some c') => Some (set_keeper s' (KClose c'))
      | Some (s', None) => Some (set_keeper s' KConnect)
      | None => None
      end
  | KConnect =>
      (* peer.cpp:97-104, tcp_socket::reconnect, tcp_socket.cpp:126-132 *)
      if p_shut s then Some (set_keeper s KAfter)
      else let s1 := disconnect s in
           if ok then Some (set_keeper (set_sock s1 (Some (length (p_conns s1))) (p_conns s1 ++ [true])) KAfter)
           else Some s1
  | KAfter =>
      (* peer.cpp:105-109 *)
      if p_shut s then Some (set_keeper s KTop)
      else Some (set_keeper (set_receiver (set_sender (set_running s true) STop) RTop) KTop)
  | KGive c =>
      match close_step s c with
      | Some (s', Some c') => Some (set_keeper s' (KGive c'))
      | Some (s', None) => Some (set_keeper s' KClear)
      | None => None
      end
  | KClear => Some (set_keeper (set_queue s [] true) KDone)
  | KDone => None
  end.

(** A step of shutdown(), the first is the call. *)
Definition shutter_step (s : peer) : option peer :=
  match p_shutter s with
  | XOff => Some (set_shutter (set_shut s true) XNotify)
  | XNotify => Some (set_shutter (notify s) XJoin)
  | XJoin => match p_keeper s with KDone => Some (set_shutter s (XClose CRunning)) | _ => None end
  | XClose c =>
      match close_step s c with
      | Some (s', Some c') => Some (set_shutter s' (XClose c'))
      | Some (s', None) => Some (set_shutter s' XDone)
      | None => None
      end
  | XDone => None
  end.

Inductive pop :=
| PApi (pkt : bytes)    (* peer::send *)
| PBreak (c : nat)      (* connection c breaks *)
| PArrive               (* a packet arrives *)
| PSpurious             (* the reconnecting thread wakes spuriously *)
| PSender (ok : bool)
| PReceiver
| PKeeper (ok : bool)
| PShutdown.

Definition p_step (s : peer) (o : pop) : option peer :=
  match o with
  | PApi pkt =>
      (* peer.cpp:26-30 *)
      Some (if p_shut s then s else log_pushed (set_queue s (p_queue s ++ [pkt]) true) pkt)
  | PBreak c =>
      match p_conns s !! c with
      | Some true => Some (set_sock s (p_sock s) (<[c := false]> (p_conns s)))
      | _ => None
      end
  | PArrive => arrive s
  | PSpurious => match p_keeper s with KAsleep => Some (set_keeper s KCheck) | _ => None end
  | PSender ok => sender_step s ok
  | PReceiver => receiver_step s
  | PKeeper ok => keeper_step s ok
  | PShutdown => shutter_step s
  end.

Fixpoint p_run (s : peer) (l : list pop) : option peer :=
  match l with
  | [] => Some s
  | o :: r => match p_step s o with Some s' => p_run s' r | None => None end
  end.
