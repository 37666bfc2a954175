(** Model of the connection manager, src/util/network/connection_manager.cpp: adding
    connections, the queues of received packets, the handler threads and the answers they
    send back, and close().

    Simplifications, valid for the whole file:
    - a packet is a list of bytes; how it travels is C71, how a connection breaks is C73;
    - the steps are the accesses to the shared state, each under the mutex the code takes.
      [g_mutex] is m_async_recv_mut while a handler thread holds it across two steps;
    - a call of add() is known by its number. The peer's receiving thread starts inside
      add() just before the peer is in m_peers, under m_peer_mutex: nobody can look at
      m_peers in between, so both are one step;
    - a condition variable wakes the threads that sleep when it is notified, and may wake
      them spuriously;
    - close() is called once, and reset() is not modelled: it must follow close() and the
      end of the handler threads (connection_manager.hpp, "Callers must close() the
      network and join() any handler threads"). *)
From stdpp Require Import base option list.
From Coq Require Import NArith.
From Verif Require Import Base.
Open Scope N_scope.

(** message_t, connection_manager.hpp: a packet and the ID of the peer it came from. *)
Record message := Msg { m_pkt : bytes; m_peer_id : N }.

(** A call of add(), connection_manager.cpp:78-109. *)
Inductive adding :=
| AddId (id : N)                (* has its peer ID, line 81 *)
| AddQueue (id : N) (q : nat)   (* and its queue, lines 82-87 *)
| AddPeer (id : N) (q : nat)    (* is in m_peers, lines 98-106 *)
| AddRefused (id : N) (q : nat) (* the manager had been closed *).

(** A handler thread, connection_manager.cpp:165-183 with 43-76. *)
Inductive handler :=
| HTop                          (* at [while(m_running)] *)
| HWait                         (* about to lock and to evaluate the predicate *)
| HChecked                      (* holds the mutex, found the predicate false *)
| HAsleep                       (* in the wait *)
| HWork (l : list message)      (* with packets to handle *)
| HDone.

Record manager := Mgr {
  g_queues : list (list message);           (* m_async_recv_queues *)
  g_data : bool;                            (* m_async_recv_data *)
  g_next : N;                               (* m_next_peer_id *)
  g_adds : list adding;
  g_peers : list (N * nat);                 (* m_peers: peer ID, number of the add *)
  g_running : bool;                         (* m_running *)
  g_mutex : option nat;                     (* the handler that holds m_async_recv_mut *)
  g_handlers : list handler;
  g_notify : nat;                           (* calls of notify_one that are due *)
  g_closing : nat;                          (* how far close() is *)
  g_received : list (nat * bytes);          (* ghost: packets given to the callbacks *)
  g_taken : list (nat * message);           (* ghost: what handle_messages returned, by thread *)
  g_handled : list (nat * message);         (* ghost: what the handler was called with *)
  g_answers : list (message * bytes * option nat)  (* ghost: answers and where they went *)
}.

Definition manager_init (handlers : nat) : manager :=
  Mgr [] false 0 [] [] true None (replicate handlers HTop) 0 0 [] [] [] [].

Inductive gop :=
| GAdd                            (* add() takes an ID *)
| GQueue (a : nat)                (* add() number a makes its queue *)
| GPeer (a : nat)                 (* add() number a makes its peer *)
| GReceive (a : nat) (pkt : bytes)   (* the callback of peer a up to the end of the lock *)
| GNotify (who : nat)             (* its notify_one *)
| GSpurious (t : nat)
| GHandler (t : nat) (resp : option bytes)  (* handler thread t takes a step; [resp]: what
                                     the user's function returns, if it is called *)
| GClose.                         (* close() takes a step *)

Definition set_queues (s : manager) (qs : list (list message)) (d : bool) : manager :=
  Mgr qs d (g_next s) (g_adds s) (g_peers s) (g_running s) (g_mutex s) (g_handlers s) (g_notify s)
    (g_closing s) (g_received s) (g_taken s) (g_handled s) (g_answers s).
Definition set_next (s : manager) (n : N) : manager :=
  Mgr (g_queues s) (g_data s) n (g_adds s) (g_peers s) (g_running s) (g_mutex s) (g_handlers s)
    (g_notify s) (g_closing s) (g_received s) (g_taken s) (g_handled s) (g_answers s).
Definition set_adds (s : manager) (l : list adding) : manager :=
  Mgr (g_queues s) (g_data s) (g_next s) l (g_peers s) (g_running s) (g_mutex s) (g_handlers s)
    (g_notify s) (g_closing s) (g_received s) (g_taken s) (g_handled s) (g_answers s).
Definition set_peers (s : manager) (l : list (N * nat)) : manager :=
  Mgr (g_queues s) (g_data s) (g_next s) (g_adds s) l (g_running s) (g_mutex s) (g_handlers s)
    (g_notify s) (g_closing s) (g_received s) (g_taken s) (g_handled s) (g_answers s).
Definition set_running (s : manager) (b : bool) : manager :=
  Mgr (g_queues s) (g_data s) (g_next s) (g_adds s) (g_peers s) b (g_mutex s) (g_handlers s)
    (g_notify s) (g_closing s) (g_received s) (g_taken s) (g_handled s) (g_answers s).
Definition set_mutex (s : manager) (m : option nat) : manager :=
  Mgr (g_queues s) (g_data s) (g_next s) (g_adds s) (g_peers s) (g_running s) m (g_handlers s)
    (g_notify s) (g_closing s) (g_received s) (g_taken s) (g_handled s) (g_answers s).
Definition set_handlers (s : manager) (l : list handler) : manager :=
  Mgr (g_queues s) (g_data s) (g_next s) (g_adds s) (g_peers s) (g_running s) (g_mutex s) l
    (g_notify s) (g_closing s) (g_received s) (g_taken s) (g_handled s) (g_answers s).
Definition set_notify (s : manager) (n : nat) : manager :=
  Mgr (g_queues s) (g_data s) (g_next s) (g_adds s) (g_peers s) (g_running s) (g_mutex s)
    (g_handlers s) n (g_closing s) (g_received s) (g_taken s) (g_handled s) (g_answers s).
Definition set_closing (s : manager) (n : nat) : manager :=
  Mgr (g_queues s) (g_data s) (g_next s) (g_adds s) (g_peers s) (g_running s) (g_mutex s)
    (g_handlers s) (g_notify s) n (g_received s) (g_taken s) (g_handled s) (g_answers s).
Definition log_received (s : manager) (x : nat * bytes) : manager :=
  Mgr (g_queues s) (g_data s) (g_next s) (g_adds s) (g_peers s) (g_running s) (g_mutex s)
    (g_handlers s) (g_notify s) (g_closing s) (g_received s ++ [x]) (g_taken s) (g_handled s)
    (g_answers s).
Definition log_taken (s : manager) (l : list (nat * message)) : manager :=
  Mgr (g_queues s) (g_data s) (g_next s) (g_adds s) (g_peers s) (g_running s) (g_mutex s)
    (g_handlers s) (g_notify s) (g_closing s) (g_received s) (g_taken s ++ l) (g_handled s)
    (g_answers s).
Definition log_handled (s : manager) (x : nat * message) : manager :=
  Mgr (g_queues s) (g_data s) (g_next s) (g_adds s) (g_peers s) (g_running s) (g_mutex s)
    (g_handlers s) (g_notify s) (g_closing s) (g_received s) (g_taken s) (g_handled s ++ [x])
    (g_answers s).
Definition log_answer (s : manager) (x : message * bytes * option nat) : manager :=
  Mgr (g_queues s) (g_data s) (g_next s) (g_adds s) (g_peers s) (g_running s) (g_mutex s)
    (g_handlers s) (g_notify s) (g_closing s) (g_received s) (g_taken s) (g_handled s)
    (g_answers s ++ [x]).

(** The loop of handle_messages, connection_manager.cpp:57-73: the packets it collects,
    what is left in the queues, and whether it set the flag again. *)
Fixpoint collect (qs : list (list message)) : list message * list (list message) * bool :=
  match qs with
  | [] => ([], [], false)
  | q :: r =>
      let '(ms, r', d) := collect r in
      match q with
      | [] => (ms, [] :: r', d)
      | m :: q' => (m :: ms, q' :: r', match q' with [] => d | _ => true end)
      end
  end.

(** send(data, peer_id), connection_manager.cpp:203-219: the peer it picks. *)
Fixpoint find_peer (l : list (N * nat)) (id : N) : option nat :=
  match l with
  | [] => None
  | (i, a) :: r => if i =? id then Some a else find_peer r id
  end.

Definition set_handler (s : manager) (t : nat) (h : handler) : manager :=
  set_handlers s (<[t := h]> (g_handlers s)).

Definition wake (h : handler) : handler := match h with HAsleep => HWait | _ => h end.

(** A step of handler thread [t]. *)
Definition handler_step (s : manager) (t : nat) (resp : option bytes) : option manager :=
  match g_handlers s !! t with
  | Some HTop =>
      (* connection_manager.cpp:168 *)
      Some (set_handler s t (if g_running s then HWait else HDone))
  | Some HWait =>
      match g_mutex s with
      | Some _ => None
      | None =>
          (* connection_manager.cpp:47-55: the predicate *)
          if negb (g_running s) || g_data s then
            (* connection_manager.cpp:55-73 *)
            let '(ms, qs, d) := collect (g_queues s) in
            Some (set_handler (log_taken (set_queues s qs d) (map (pair t) ms)) t (HWork ms))
          else Some (set_handler (set_mutex s (Some t)) t HChecked)
      end
  | Some HChecked =>
      (* the wait releases the mutex and sleeps in one step *)
      Some (set_handler (set_mutex s None) t HAsleep)
  | Some HAsleep => None
  | Some (HWork []) => Some (set_handler s t HTop)
  | Some (HWork (m :: r)) =>
      (* connection_manager.cpp:171-182 *)
      let s1 := set_handler (log_handled s (t, m)) t (HWork r) in
      match resp with
      | Some b => Some (log_answer s1 (m, b, find_peer (g_peers s) (m_peer_id m)))
      | None => Some s1
      end
  | Some HDone => None
  | None => None
  end.

(** One step; [None] when it is not possible. *)
Definition g_step (s : manager) (o : gop) : option manager :=
  match o with
  | GAdd =>
      (* connection_manager.cpp:81 *)
      Some (set_next (set_adds s (g_adds s ++ [AddId (g_next s)])) (add64 (g_next s) 1))
  | GQueue a =>
      (* connection_manager.cpp:82-87 *)
      match g_adds s !! a, g_mutex s with
      | Some (AddId id), None =>
          Some (set_adds (set_queues s (g_queues s ++ [[]]) (g_data s))
                  (<[a := AddQueue id (length (g_queues s))]> (g_adds s)))
      | _, _ => None
      end
  | GPeer a =>
      (* connection_manager.cpp:98-106 *)
      match g_adds s !! a with
      | Some (AddQueue id q) =>
          Some (if g_running s
                then set_peers (set_adds s (<[a := AddPeer id q]> (g_adds s)))
                       (g_peers s ++ [(id, a)])
                else set_adds s (<[a := AddRefused id q]> (g_adds s)))
      | _ => None
      end
  | GReceive a pkt =>
      (* connection_manager.cpp:88-95, while the peers are not shut down *)
      match g_adds s !! a, g_mutex s, (g_closing s <? 2)%nat with
      | Some (AddPeer id q), None, true =>
          Some (log_received
                  (set_notify
                     (set_queues s (alter (fun l => l ++ [Msg pkt id]) q (g_queues s)) true)
                     (S (g_notify s)))
                  (a, pkt))
      | _, _, _ => None
      end
  | GNotify who =>
      (* connection_manager.cpp:95: wakes one of the sleeping threads, if there is one *)
      match g_notify s with
      | O => None
      | S n =>
          match g_handlers s !! who with
          | Some HAsleep => Some (set_handler (set_notify s n) who HWait)
          | _ => if existsb (fun h => match h with HAsleep => true | _ => false end) (g_handlers s)
                 then None else Some (set_notify s n)
          end
      end
  | GSpurious t =>
      match g_handlers s !! t with
      | Some HAsleep => Some (set_handler s t HWait)
      | _ => None
      end
  | GHandler t resp => handler_step s t resp
  | GClose =>
      (* close(), connection_manager.cpp:186-201 *)
      match g_closing s with
      | 0%nat => Some (set_closing (set_running s false) 1)
      | 1%nat => Some (set_closing s 2)
      | 2%nat => Some (set_closing (set_peers s []) 3)
      | 3%nat => Some (set_closing (set_handlers s (map wake (g_handlers s))) 4)
      | _ => None
      end
  end.

Fixpoint g_run (s : manager) (l : list gop) : option manager :=
  match l with
  | [] => Some s
  | o :: r => match g_step s o with Some s' => g_run s' r | None => None end
  end.

(** The loop of send_to_one, connection_manager.cpp:246-257: [connected] says which of the
    peers are connected, [left] counts the turns left. The number of the peer it sends to. *)
Fixpoint send_to_one_loop (connected : list bool) (offset : nat) (i left : nat) : option nat :=
  match left with
  | O => None
  | S n =>
      let idx := ((i + offset) mod (length connected))%nat in
      match connected !! idx with
      | Some true => Some idx
      | _ => send_to_one_loop connected offset (S i) n
      end
  end.
(** send_to_one, connection_manager.cpp:235-259, with the random [offset]. *)
Definition send_to_one (connected : list bool) (offset : nat) : option nat :=
  send_to_one_loop connected offset 0 (length connected).
