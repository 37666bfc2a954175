(** Predicates used to state C45. *)
From stdpp Require Import base option list gmap.
From Coq Require Import NArith.
From Verif Require Import Base RpcModel.
Open Scope N_scope.

(** How many calls a history starts. *)
Fixpoint starts (l : list rop) : nat :=
  match l with
  | [] => 0
  | RStart _ _ :: r => S (starts r)
  | _ :: r => starts r
  end.

(** How often call [c] is completed: its promise set or its callback called. *)
Definition of_call (c : nat) (e : event) : bool :=
  match e with Fulfilled c' _ | Called c' _ => bool_decide (c' = c) end.
Definition completions (c : nat) (s : client) : nat := length (List.filter (of_call c) (r_events s)).

(** Response [r] is a server's answer to the request with the ID and the payload of
    call [c], and that request was sent. *)
Definition own_answer (s : client) (c : nat) (r : option bytes) : Prop :=
  exists x, r_calls s !! c = Some x /\ c_sent x = true /\
    (c_id x, c_payload x, r) ∈ r_answers s /\ (c_id x, c_payload x) ∈ r_requests s.

(** The calls still waiting for a response. *)
Definition waits (s : client) (c : nat) : Prop :=
  exists x, r_calls s !! c = Some x /\ c_phase x = Waiting /\ future_value c (r_events s) = None.
