(** What users of the pool of threads rely on. *)
From Coq Require Import List Bool Arith.
From stdpp Require Import base option list.
From Verif Require Import PoolModel.
Import ListNotations.

(** The tasks that were started, in order. *)
Definition starts (es : list event) : list task :=
  omap (fun e => match e with Started t => Some t | _ => None end) es.
(** The tasks that were given to push. *)
Definition calls (es : list event) : list task :=
  omap (fun e => match e with Called t => Some t | _ => None end) es.

(** Steps that the pool's own code does, which need no task to go on and no new call. *)
Definition own (l : label) : bool :=
  match l with LLock _ | LHold | LPop _ | LFlag _ => true | _ => false end.
(** Steps towards the end of a pool whose destructor was called: its own ones, the destructor's,
    and tasks that return. *)
Definition ending (l : label) : bool :=
  match l with LFinish _ | LDestroyLock => true | _ => own l end.

(** None of these steps is possible. *)
Definition quiet (allowed : label -> bool) (p : pool) : Prop := forall l, allowed l = true -> step p l = None.

(** A task is inside a call to the pool. *)
Definition some_held (p : pool) : Prop := Exists (fun x => t_held x = true) (p_threads p).

(** Steps that do not get m_mut. *)
Definition no_locks (l : label) : bool := match l with LLock _ | LDestroyLock => false | _ => true end.
(** Not a task that throws, nor one that destroys the pool. *)
Definition harmless (l : label) : bool := match l with LThrow _ | LDestroy (Some _) => false | _ => true end.
