(** Model of how a two-phase coordinator collects transactions in batches, runs the batches and
    answers: uhs/twophase/coordinator/controller.cpp, execute_transaction, batch_executor_func,
    schedule_exec, start and stop, with their threads.

    Simplifications, valid for the whole file:
    - what runs under m_batch_mut is one step, and so is each access outside it. A thread that
      waits for m_batch_cv sleeps until it is notified or wakes by itself ([MWake]);
    - the RPC server has one handler thread (tcp_server.hpp:47-71, connection_manager.cpp:
      138-182), so there is at most one call of execute_transaction at a time. Transactions
      that are refused before the batch is looked at (no leader, attestations:
      controller.cpp:687-699) are left out;
    - what a batch does to the shards (distributed_tx::execute) is TwoPhaseModel; here it ends
      with any result of the right length, or with none;
    - start: recovery is TwoPhaseModel, here it is part of the step [MStart]. *)
From stdpp Require Import base option list.
From Coq Require Import NArith.
Open Scope nat_scope.

(** An entry of m_current_txs, controller.hpp:164-168: transaction, the request whose callback
    is kept, and the index in the batch. *)
Record entry := Entry { e_tx : N; e_req : nat; e_idx : nat }.
(** A batch: the transactions of the distributed_tx, and the map. *)
Record batch := Batch { b_txs : list N; b_map : list entry }.
Definition batch_empty : batch := Batch [] [].

(** The thread that calls execute_transaction, controller.cpp:684-731. *)
Inductive handler :=
| HIdle
| HWant (tx : N) (req : nat)        (* at the mutex, or about to look at the condition again *)
| HAsleep (tx : N) (req : nat)      (* in m_batch_cv.wait *)
| HNotify                           (* added, about to notify *)
| HEnded.                           (* the server is gone *)
(** The thread that runs batch_executor_func, controller.cpp:364-457. *)
Inductive executor :=
| ETop                              (* while(m_running) *)
| EWait
| EAsleep
| ECheck                            (* if(!m_running) break *)
| ESwap
| ENotify (b : batch)
| ESchedule (b : batch)             (* in schedule_exec *)
| EEnded.
(** The thread that starts and stops the coordinator, in stop, controller.cpp:182-217. *)
Inductive stopper :=
| SRun
| SClose                            (* m_running is unset, in m_rpc_server.reset() *)
| SNotify
| SJoinExec
| SJoinBatches
| SStopped.

Record coord := Coord {
  c_running : bool;
  c_cur : batch;
  c_handler : handler;
  c_exec : executor;
  c_work : list batch;              (* the batches that run *)
  c_stop : stopper;
  c_reqs : list N;                  (* the transactions of all requests that came *)
  c_accepted : list nat;            (* calls that returned true *)
  c_refused : list nat;             (* calls that returned false *)
  c_answers : list (nat * option bool);              (* calls of the callbacks *)
  c_done : list (list N * option (list bool));       (* the batches that ended *)
  c_lost : list nat                 (* callbacks that were destroyed without a call *)
}.
Definition coord_init : coord :=
  Coord false batch_empty HEnded EEnded [] SStopped [] [] [] [] [] [].

(** Who wakes up if both are asleep and one is notified. *)
Inductive waiter := WHandler | WExec.
Inductive move :=
| MRequest (tx : N)
| MHandler (w : waiter)
| MExec (w : waiter)
| MBatch (i : nat) (res : option (list bool))   (* a batch ends *)
| MWake (w : waiter)
| MStop
| MStopper (w : waiter)
| MStart.

(** m_batch_cv.notify_one. *)
Definition wake_handler (s : coord) : coord :=
  match c_handler s with
  | HAsleep tx r => Coord (c_running s) (c_cur s) (HWant tx r) (c_exec s) (c_work s) (c_stop s)
      (c_reqs s) (c_accepted s) (c_refused s) (c_answers s) (c_done s) (c_lost s)
  | _ => s
  end.
Definition wake_exec (s : coord) : coord :=
  match c_exec s with
  | EAsleep => Coord (c_running s) (c_cur s) (c_handler s) EWait (c_work s) (c_stop s)
      (c_reqs s) (c_accepted s) (c_refused s) (c_answers s) (c_done s) (c_lost s)
  | _ => s
  end.
Definition notify_one (w : waiter) (s : coord) : coord :=
  match c_handler s, c_exec s, w with
  | HAsleep _ _, EAsleep, WHandler => wake_handler s
  | HAsleep _ _, EAsleep, WExec => wake_exec s
  | HAsleep _ _, _, _ => wake_handler s
  | _, _, _ => wake_exec s
  end.

Definition set_handler (h : handler) (s : coord) : coord :=
  Coord (c_running s) (c_cur s) h (c_exec s) (c_work s) (c_stop s)
    (c_reqs s) (c_accepted s) (c_refused s) (c_answers s) (c_done s) (c_lost s).
Definition set_exec (e : executor) (s : coord) : coord :=
  Coord (c_running s) (c_cur s) (c_handler s) e (c_work s) (c_stop s)
    (c_reqs s) (c_accepted s) (c_refused s) (c_answers s) (c_done s) (c_lost s).
Definition set_stop (t : stopper) (s : coord) : coord :=
  Coord (c_running s) (c_cur s) (c_handler s) (c_exec s) (c_work s) t
    (c_reqs s) (c_accepted s) (c_refused s) (c_answers s) (c_done s) (c_lost s).

Section params.
Context (batch_size max_threads : nat).

(** The part of execute_transaction under the mutex, controller.cpp:702-723: it sleeps when
    there is no space, returns false when the coordinator stops or the batch has the
    transaction, and adds it otherwise. *)
Definition try_add (tx : N) (r : nat) (s : coord) : coord :=
  let b := c_cur s in
  if c_running s && (batch_size <=? length (b_map b)) then set_handler (HAsleep tx r) s
  else if negb (c_running s) || existsb (fun e => N.eqb (e_tx e) tx) (b_map b) then
    Coord (c_running s) b HIdle (c_exec s) (c_work s) (c_stop s)
      (c_reqs s) (c_accepted s) (c_refused s ++ [r]) (c_answers s) (c_done s) (c_lost s)
  else
    Coord (c_running s)
      (Batch (b_txs b ++ [tx]) (b_map b ++ [Entry tx r (length (b_txs b))]))
      HNotify (c_exec s) (c_work s) (c_stop s)
      (c_reqs s) (c_accepted s ++ [r]) (c_refused s) (c_answers s) (c_done s) (c_lost s).

Definition handler_step (w : waiter) (s : coord) : option coord :=
  match c_handler s with
  | HWant tx r => Some (try_add tx r s)
  | HNotify => Some (set_handler HIdle (notify_one w s))         (* controller.cpp:724-728 *)
  | _ => None
  end.

Definition exec_step (w : waiter) (s : coord) : option coord :=
  match c_exec s with
  | ETop => Some (set_exec (if c_running s then EWait else EEnded) s)
  | EWait =>                                               (* controller.cpp:366-373 *)
      Some (set_exec (if negb (match b_map (c_cur s) with [] => true | _ => false end)
                         || negb (c_running s) then ECheck else EAsleep) s)
  | ECheck => Some (set_exec (if c_running s then ESwap else EEnded) s)
  | ESwap =>                                               (* controller.cpp:395-408 *)
      Some (Coord (c_running s) batch_empty (c_handler s) (ENotify (c_cur s)) (c_work s)
        (c_stop s) (c_reqs s) (c_accepted s) (c_refused s) (c_answers s) (c_done s) (c_lost s))
  | ENotify b => Some (set_exec (ESchedule b) (notify_one w s))
  | ESchedule b =>                                         (* schedule_exec, 491-525 *)
      if length (c_work s) <? max_threads then
        Some (Coord (c_running s) (c_cur s) (c_handler s) ETop (c_work s ++ [b])
          (c_stop s) (c_reqs s) (c_accepted s) (c_refused s) (c_answers s) (c_done s)
          (c_lost s))
      else None
  | EAsleep | EEnded => None
  end.

(** The end of a batch, controller.cpp:420-432: each callback is called with the result at the
    index that is kept for it, or without one. *)
Definition answer (res : option (list bool)) (e : entry) : nat * option bool :=
  (e_req e, match res with Some l => l !! e_idx e | None => None end).
Definition batch_step (i : nat) (res : option (list bool)) (s : coord) : option coord :=
  match c_work s !! i with
  | Some b =>
      if match res with Some l => length l =? length (b_txs b) | None => true end then
        Some (Coord (c_running s) (c_cur s) (c_handler s) (c_exec s)
          (take i (c_work s) ++ drop (S i) (c_work s)) (c_stop s)
          (c_reqs s) (c_accepted s) (c_refused s)
          (c_answers s ++ map (answer res) (b_map b)) (c_done s ++ [(b_txs b, res)]) (c_lost s))
      else None
  | None => None
  end.

(** stop, controller.cpp:182-217. The server's destructor waits for its handler thread. *)
Definition stop_step (w : waiter) (s : coord) : option coord :=
  match c_stop s with
  | SClose =>
      match c_handler s with
      | HIdle => Some (set_stop SNotify (set_handler HEnded s))
      | HEnded => Some (set_stop SNotify s)
      | _ => None
      end
  | SNotify => Some (set_stop SJoinExec (notify_one w s))
  | SJoinExec => match c_exec s with EEnded => Some (set_stop SJoinBatches s) | _ => None end
  | SJoinBatches => match c_work s with [] => Some (set_stop SStopped s) | _ => None end
  | SRun | SStopped => None
  end.

Definition c_move (s : coord) (m : move) : option coord :=
  match m with
  | MRequest tx =>
      match c_handler s with
      | HIdle => Some (Coord (c_running s) (c_cur s) (HWant tx (length (c_reqs s))) (c_exec s)
          (c_work s) (c_stop s) (c_reqs s ++ [tx]) (c_accepted s) (c_refused s) (c_answers s)
          (c_done s) (c_lost s))
      | _ => None
      end
  | MHandler w => handler_step w s
  | MExec w => exec_step w s
  | MBatch i res => batch_step i res s
  | MWake WHandler => match c_handler s with HAsleep _ _ => Some (wake_handler s) | _ => None end
  | MWake WExec => match c_exec s with EAsleep => Some (wake_exec s) | _ => None end
  | MStop =>
      match c_stop s with
      | SRun => Some (Coord false (c_cur s) (c_handler s) (c_exec s) (c_work s) SClose
          (c_reqs s) (c_accepted s) (c_refused s) (c_answers s) (c_done s) (c_lost s))
      | _ => None
      end
  | MStopper w => stop_step w s
  | MStart =>                                              (* controller.cpp:585-650 *)
      match c_stop s with
      | SStopped => Some (Coord true batch_empty HIdle ETop [] SRun
          (c_reqs s) (c_accepted s) (c_refused s) (c_answers s) (c_done s)
          (c_lost s ++ map e_req (b_map (c_cur s))))
      | _ => None
      end
  end.
Fixpoint c_moves (s : coord) (l : list move) : option coord :=
  match l with
  | [] => Some s
  | m :: r => match c_move s m with Some s' => c_moves s' r | None => None end
  end.
End params.
