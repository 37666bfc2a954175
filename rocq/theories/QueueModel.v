(** Model of the blocking queue, src/util/common/blocking_queue.hpp.

    A thread is a number. Every method holds the queue's mutex; a thread in
    [m_cv.wait] has released it. [notify_one] makes one of the threads asleep in
    [wait] runnable (any of them; none if nobody is asleep), [notify_all] all of them;
    a sleeping thread may also wake spuriously. A runnable thread evaluates the
    predicate [m_wake] again when it gets the mutex, and goes back to sleep if it is
    false. The end of the queue's lifetime is not modelled. *)
From stdpp Require Import base option list.
From Coq Require Import NArith.
From Verif Require Import Base.
Open Scope N_scope.

(** How the underlying container orders its elements: std::queue (front = oldest),
    std::priority_queue with std::less (top = a largest element, the default) or with
    std::greater (top = a smallest element, parsec/agent/server_interface.hpp:62). *)
Inductive order := Fifo | Largest | Smallest.

(** blocking_queue_internal, blocking_queue.hpp:108-111, and the threads in [pop]. *)
Record queue := Queue {
  q_buffer : list N;       (* m_buffer, oldest first *)
  q_wake : bool;           (* m_wake *)
  q_asleep : list nat;     (* threads asleep in m_cv.wait *)
  q_runnable : list nat    (* threads in m_cv.wait that were woken *)
}.
Definition queue0 : queue := Queue [] false [] [].

Definition better (o : order) (x y : N) : bool :=
  match o with Fifo => false | Largest => x <? y | Smallest => y <? x end.

(** The element of [x :: l] that no other is better than. *)
Fixpoint best (o : order) (x : N) (l : list N) : N :=
  match l with [] => x | y :: r => best o (if better o x y then y else x) r end.

Fixpoint remove_first (x : N) (l : list N) : list N :=
  match l with [] => [] | y :: r => if y =? x then r else y :: remove_first x r end.

(** first_item followed by [m_buffer.pop()], blocking_queue.hpp:58-62, 94-106. *)
Definition take_first (o : order) (l : list N) : option (N * list N) :=
  match l with
  | [] => None
  | x :: r =>
      match o with
      | Fifo => Some (x, r)
      | _ => let m := best o x r in Some (m, remove_first m l)
      end
  end.

(** [notify_one]: [who] picks the position of the thread that wakes. *)
Definition notify_one (q : queue) (who : nat) : queue :=
  match q_asleep q !! (who mod (length (q_asleep q)))%nat with
  | Some t => Queue (q_buffer q) (q_wake q)
                (delete (who mod (length (q_asleep q)))%nat (q_asleep q)) (q_runnable q ++ [t])
  | None => q
  end.

(** push, blocking_queue.hpp:36-45: new state and result (the size). *)
Definition push (q : queue) (x : N) (who : nat) : queue * N :=
  let b := q_buffer q ++ [x] in
  (notify_one (Queue b true (q_asleep q) (q_runnable q)) who, N.of_nat (length b)).

(** The end of pop once the thread does not wait (any more), blocking_queue.hpp:57-68:
    the popped element, or [None] when it returns false. *)
Definition finish_pop (o : order) (q : queue) : queue * option N :=
  match take_first o (q_buffer q) with
  | Some (x, r) =>
      (Queue r (match r with [] => false | _ => true end) (q_asleep q) (q_runnable q), Some x)
  | None => (q, None)
  end.

(** What a thread's step in pop does: it goes to sleep, or pop returns. *)
Inductive pop_result := Sleeps | Returns (r : option N).

(** pop called by thread [t], blocking_queue.hpp:48-70. *)
Definition pop (o : order) (q : queue) (t : nat) : queue * pop_result :=
  match q_buffer q with
  | [] =>
      if q_wake q then (q, Returns None)
      else (Queue [] false (q_asleep q ++ [t]) (q_runnable q), Sleeps)
  | _ => let '(q', r) := finish_pop o q in (q', Returns r)
  end.

(** A woken thread gets the mutex and evaluates the predicate, blocking_queue.hpp:52-54. *)
Definition resume (o : order) (q : queue) (j : nat) : queue * option (nat * pop_result) :=
  match q_runnable q !! j with
  | None => (q, None)
  | Some t =>
      let q1 := Queue (q_buffer q) (q_wake q) (q_asleep q) (delete j (q_runnable q)) in
      if q_wake q
      then let '(q2, r) := finish_pop o q1 in (q2, Some (t, Returns r))
      else (Queue (q_buffer q1) false (q_asleep q ++ [t]) (q_runnable q1), Some (t, Sleeps))
  end.

(** A spurious wake-up. *)
Definition spurious (q : queue) (j : nat) : queue :=
  match q_asleep q !! j with
  | Some t => Queue (q_buffer q) (q_wake q) (delete j (q_asleep q)) (q_runnable q ++ [t])
  | None => q
  end.

(** clear, blocking_queue.hpp:73-80. *)
Definition clear (q : queue) : queue :=
  Queue [] true [] (q_runnable q ++ q_asleep q).

(** reset, blocking_queue.hpp:83-86. *)
Definition reset (q : queue) : queue :=
  Queue (q_buffer q) false (q_asleep q) (q_runnable q).

Inductive qop :=
| Push (x : N) (who : nat)
| Pop (t : nat)
| Resume (j : nat)
| Spurious (j : nat)
| Clear
| Reset.

(** One step, with what a pop that ended in it returned. *)
Definition q_step (o : order) (q : queue) (c : qop) : queue * option (nat * option N) :=
  match c with
  | Push x who => (fst (push q x who), None)
  | Pop t =>
      match pop o q t with
      | (q', Returns r) => (q', Some (t, r))
      | (q', Sleeps) => (q', None)
      end
  | Resume j =>
      match resume o q j with
      | (q', Some (t, Returns r)) => (q', Some (t, r))
      | (q', _) => (q', None)
      end
  | Spurious j => (spurious q j, None)
  | Clear => (clear q, None)
  | Reset => (reset q, None)
  end.

(** A run, with what each step that ended a pop returned, in order. *)
Fixpoint q_run (o : order) (q : queue) (l : list qop) : queue * list (qop * option (nat * option N)) :=
  match l with
  | [] => (q, [])
  | c :: r =>
      let '(q1, x) := q_step o q c in
      let '(q2, xs) := q_run o q1 r in
      (q2, (c, x) :: xs)
  end.
