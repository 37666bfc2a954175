(** The pool of threads that runs contracts: util/common/thread_pool.cpp, on
    util/common/blocking_queue.hpp.  Used by the EVM runner, runners/evm/impl.cpp:716-738. *)
From Coq Require Import List Bool Arith.
From stdpp Require Import base option list.
Import ListNotations.

(** A task is a std::function; tasks are told apart by numbers. *)
Definition task := nat.

(** Where thread_loop, thread_pool.cpp:45-51, stands: in pop (line 47), in f() (line 48), between
    f() and the store to m_running (line 49), or returned. *)
Inductive tpos := TPop | TRun (t : task) | TFlag (t : task) | TEnd.
(** thread_type, thread_pool.hpp:29-33: m_running, and m_buffer and m_wake of m_queue.  [t_held]
    says that the thread's task is itself inside push or the destructor and cannot go on.
    Simplified: spurious wake-ups do nothing (the wait has a predicate), and the queue's own
    mutex makes push, pop and clear single steps. *)
Record thr := Thr { t_running : bool; t_queue : list task; t_wake : bool; t_pos : tpos; t_held : bool }.

(** Who calls: code outside the pool, or the task of the [i]th thread. *)
Definition caller := option nat.
(** What the holder of m_mut is about to do.  [HScan w t i]: look at the [i]th thread, thread_pool.cpp:23;
    [HPut w t i]: push to its queue, lines 28 and 42; [HClear w i]: the destructor at the [i]th
    thread, line 12; [HJoin w i]: joining it, line 14. *)
Inductive holder := HScan (w : caller) (t : task) (i : nat) | HPut (w : caller) (t : task) (i : nat)
  | HClear (w : caller) (i : nat) | HJoin (w : caller) (i : nat).

(** What can be seen from outside. *)
Inductive event := Called (t : task) | Returned (t : task) | Started (t : task) | Finished (t : task)
  | DestroyCalled | Destroyed | Terminated.
#[global] Instance event_dec : EqDecision event.
Proof. solve_decision. Defined.

Record pool := Pool {
  p_threads : list thr;                 (* m_threads *)
  p_lock : option holder;               (* m_mut *)
  p_pending : list (caller * task);     (* calls of push that wait for m_mut *)
  p_destroy : option caller;            (* a destructor that waits for m_mut *)
  p_events : list event;                (* oldest first *)
}.
Definition pool0 : pool := Pool [] None [] None [].

Definition set_thr (p : pool) (i : nat) (f : thr -> thr) : pool :=
  Pool (alter f i (p_threads p)) (p_lock p) (p_pending p) (p_destroy p) (p_events p).
Definition set_lock (p : pool) (h : option holder) : pool :=
  Pool (p_threads p) h (p_pending p) (p_destroy p) (p_events p).
Definition emit (p : pool) (e : event) : pool :=
  Pool (p_threads p) (p_lock p) (p_pending p) (p_destroy p) (p_events p ++ [e]).
Definition hold (b : bool) (x : thr) : thr := Thr (t_running x) (t_queue x) (t_wake x) (t_pos x) b.
Definition hold_caller (b : bool) (w : caller) (p : pool) : pool :=
  match w with None => p | Some i => set_thr p i (hold b) end.

(** thread_pool.cpp:27 *)
Definition claim (x : thr) : thr := Thr true (t_queue x) (t_wake x) (t_pos x) (t_held x).
(** blocking_queue::push, blocking_queue.hpp:41-49 *)
Definition put (t : task) (x : thr) : thr := Thr (t_running x) (t_queue x ++ [t]) true (t_pos x) (t_held x).
(** blocking_queue::clear, blocking_queue.hpp:81-88 *)
Definition clear (x : thr) : thr := Thr (t_running x) [] true (t_pos x) (t_held x).
(** thread_pool.cpp:36-41: a thread whose queue is new. *)
Definition fresh_thr : thr := Thr true [] false TPop false.

Inductive label :=
  | LCall (w : caller) (t : task)  (* push is called *)
  | LLock (k : nat)                (* the [k]th waiting call of push gets m_mut *)
  | LHold                          (* the holder of m_mut does its next step *)
  | LPop (i : nat)                 (* the [i]th thread gets through pop *)
  | LFinish (i : nat)              (* its task returns *)
  | LThrow (i : nat)               (* its task throws *)
  | LFlag (i : nat)                (* it stores false to m_running *)
  | LDestroy (w : caller)          (* the destructor is called *)
  | LDestroyLock.                  (* it gets m_mut *)

(** The task of the [i]th thread is at work and not inside a call to the pool. *)
Definition active (p : pool) (i : nat) : bool :=
  match p_threads p !! i with
  | Some (Thr _ _ _ (TRun _) false) => true
  | _ => false
  end.
Definition caller_active (p : pool) (w : caller) : bool :=
  match w with None => true | Some i => active p i end.

Definition destroying (p : pool) : bool := bool_decide (DestroyCalled ∈ p_events p).
Definition ended (p : pool) : bool := bool_decide (Destroyed ∈ p_events p) || bool_decide (Terminated ∈ p_events p).

(** The holder's next step. *)
Definition step_hold (p : pool) (h : holder) : option pool :=
  match h with
  | HScan w t i =>
      match p_threads p !! i with
      | Some x => if t_running x then Some (set_lock p (Some (HScan w t (S i))))
                  else Some (set_lock (set_thr p i claim) (Some (HPut w t i)))
      | None => Some (Pool (p_threads p ++ [fresh_thr]) (Some (HPut w t i)) (p_pending p) (p_destroy p) (p_events p))
      end
  | HPut w t i => Some (emit (hold_caller false w (set_lock (set_thr p i (put t)) None)) (Returned t))
  | HClear w i =>
      match p_threads p !! i with
      | Some _ => Some (set_lock (set_thr p i clear) (Some (HJoin w i)))
      | None => Some (emit (set_lock p None) Destroyed)
      end
  | HJoin w i =>
      (* join of the calling thread throws std::system_error out of a destructor *)
      if bool_decide (w = Some i) then Some (emit p Terminated)
      else match p_threads p !! i with
           | Some (Thr _ _ _ TEnd _) => Some (set_lock p (Some (HClear w (S i))))
           | _ => None
           end
  end.

(** blocking_queue::pop, blocking_queue.hpp:59-77, in thread_loop: blocks if there is nothing in the
    queue and m_wake is not set. *)
Definition step_pop (p : pool) (i : nat) : option pool :=
  match p_threads p !! i with
  | Some (Thr r (t :: q) _ TPop h) =>
      Some (emit (set_thr p i (fun _ => Thr r q (negb (bool_decide (q = []))) (TRun t) h)) (Started t))
  | Some (Thr r [] true TPop h) => Some (set_thr p i (fun _ => Thr r [] true TEnd h))
  | _ => None
  end.

(** One step.  None: the step is not possible.  The rules of C++ that callers keep: nobody but the
    pool's tasks calls push once the destructor was called, and the destructor is called once,
    while no call of push from outside is in progress.  Tasks are given fresh numbers. *)
Definition outside_calls (p : pool) : bool :=
  existsb (fun c => match fst c with None => true | Some _ => false end) (p_pending p) ||
  match p_lock p with Some (HScan None _ _) | Some (HPut None _ _) => true | _ => false end.
Definition step (p : pool) (l : label) : option pool :=
  if ended p then None
  else match l with
  | LCall w t =>
      if caller_active p w && negb (bool_decide (Called t ∈ p_events p)) &&
         (negb (destroying p) || match w with Some _ => true | None => false end)
      then Some (emit (hold_caller true w (Pool (p_threads p) (p_lock p) (p_pending p ++ [(w, t)]) (p_destroy p) (p_events p))) (Called t))
      else None
  | LLock k =>
      match p_lock p, p_pending p !! k with
      | None, Some (w, t) => Some (Pool (p_threads p) (Some (HScan w t 0)) (delete k (p_pending p)) (p_destroy p) (p_events p))
      | _, _ => None
      end
  | LHold => match p_lock p with Some h => step_hold p h | None => None end
  | LPop i => step_pop p i
  | LFinish i =>
      match p_threads p !! i with
      | Some (Thr r q k (TRun t) false) => Some (emit (set_thr p i (fun _ => Thr r q k (TFlag t) false)) (Finished t))
      | _ => None
      end
  | LThrow i => if active p i then Some (emit p Terminated) else None  (* std::terminate *)
  | LFlag i =>
      match p_threads p !! i with
      | Some (Thr _ q k (TFlag _) h) => Some (set_thr p i (fun _ => Thr false q k TPop h))
      | _ => None
      end
  | LDestroy w =>
      if caller_active p w && negb (destroying p) && negb (outside_calls p)
      then Some (emit (hold_caller true w (Pool (p_threads p) (p_lock p) (p_pending p) (Some w) (p_events p))) DestroyCalled)
      else None
  | LDestroyLock =>
      match p_lock p, p_destroy p with
      | None, Some w => Some (Pool (p_threads p) (Some (HClear w 0)) (p_pending p) None (p_events p))
      | _, _ => None
      end
  end.

Fixpoint runs (p : pool) (ls : list label) : option pool :=
  match ls with
  | [] => Some p
  | l :: ls => match step p l with Some p' => runs p' ls | None => None end
  end.
