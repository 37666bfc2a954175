(** What a coordinator owes to those who send it transactions. *)
From stdpp Require Import base option list.
From Coq Require Import NArith.
From Verif Require Import CoordBatchModel.
Open Scope nat_scope.

Section params.
Context (batch_size max_threads : nat).
Notation c_move := (c_move batch_size max_threads).
Notation c_moves := (c_moves batch_size max_threads).

Definition reachable (s : coord) : Prop := exists l, c_moves coord_init l = Some s.

(** Moves of the threads, without new requests, spurious wake-ups, orders to stop or start. *)
Definition internal (m : move) : Prop :=
  match m with MHandler _ | MExec _ | MBatch _ _ | MStopper _ => True | _ => False end.
(** No thread can go on. *)
Definition quiet (s : coord) : Prop := forall m, internal m -> c_move s m = None.

(** How often a request was answered. *)
Definition times_answered (k : nat) (s : coord) : nat :=
  length (filter (fun a : nat * option bool => fst a = k) (c_answers s)).
(** A request that was taken on and not answered is in the batch that is being collected, in
    the one about to start, or in one that runs. *)
Definition in_batch (k : nat) (b : batch) : Prop := Exists (fun e => e_req e = k) (b_map b).
Definition under_way (k : nat) (s : coord) : Prop :=
  in_batch k (c_cur s) \/ Exists (in_batch k) (c_work s) \/
  match c_exec s with ENotify b | ESchedule b => in_batch k b | _ => False end.
End params.
