(** Property C45: the RPC client. All histories of calls of both kinds, sends that work
    or fail, answers that are lost, late, reordered or repeated, timeouts and the
    destructor, in every interleaving, until 2^64 calls were made. *)
From stdpp Require Import base option list.
From Coq Require Import NArith.
From Verif Require Import Base RpcModel RpcSpec RpcProofs.
Open Scope N_scope.

(** C45: no assertion fails and no promise is set twice. *)
Theorem C45_never_broken l : N.of_nat (starts l) <= two64 -> rpc_run client_init l <> Broken.
Proof. exact (never_broken l). Qed.
Print Assumptions C45_never_broken.

(** C45: each call is completed at most once. *)
Theorem C45_at_most_once l s c : N.of_nat (starts l) <= two64 -> rpc_run client_init l = Next s ->
  (completions c s <= 1)%nat.
Proof. exact (at_most_once l s c). Qed.
Print Assumptions C45_at_most_once.

(** C45: with a server's answer to its own request: the one with its ID and its payload. *)
Theorem C45_own_answer l s c r : N.of_nat (starts l) <= two64 -> rpc_run client_init l = Next s ->
  Fulfilled c (Some r) ∈ r_events s \/ Called c r ∈ r_events s -> own_answer s c r.
Proof. exact (own_only l s c r). Qed.
Print Assumptions C45_own_answer.

(** C45: the same for what a blocking call returns. *)
Theorem C45_own_returned l s c x b : N.of_nat (starts l) <= two64 ->
  rpc_run client_init l = Next s ->
  r_calls s !! c = Some x -> c_phase x = Returned (RValue (Some b)) -> own_answer s c (Some b).
Proof. exact (own_returned l s c x b). Qed.
Print Assumptions C45_own_returned.

(** C45: no two calls have the same ID. *)
Theorem C45_ids_distinct l s c d x y : N.of_nat (starts l) <= two64 ->
  rpc_run client_init l = Next s ->
  r_calls s !! c = Some x -> r_calls s !! d = Some y -> c_id x = c_id y -> c = d.
Proof. exact (ids_distinct l s c d x y). Qed.
Print Assumptions C45_ids_distinct.

(** Two calls at once, their answers in the other order, a timeout that crosses with its
    answer, a repeated answer, and a third call. *)
Example C45_example : exists s, rpc_run client_init sample = Next s /\
  r_events s = [Fulfilled 0 (Some (Some [10])); Called 1 (Some [20]); Fulfilled 2 (Some (Some [30]))] /\
  map c_phase (r_calls s) = [Returned (RValue None); Returned (RBool true); Returned (RValue (Some [30]))].
Proof. exact sample_case. Qed.

(** C45: a call that reports that it could not be sent never calls its callback. *)
Theorem C45_failed_never_called l s c x : N.of_nat (starts l) <= two64 ->
  rpc_run client_init l = Next s -> r_calls s !! c = Some x ->
  c_phase x = Returned (RBool false) -> completions c s = O.
Proof. exact (failed_never_called l s c x). Qed.
Print Assumptions C45_failed_never_called.

Example C45_failed_example : exists s,
  rpc_run client_init [RStart Callback [1]; RRegister 0%nat; RSend 0%nat false; RCleanup 0%nat] = Next s /\
  map c_phase (r_calls s) = [Returned (RBool false)].
Proof. exact failed_case. Qed.

(** C45: an answer that arrives while the call waits completes it. *)
Theorem C45_answer_completes l s c x j p r : N.of_nat (starts l) <= two64 ->
  rpc_run client_init l = Next s -> r_closed s = false -> r_handler s = None ->
  r_calls s !! c = Some x -> waits s c -> r_answers s !! j = Some (c_id x, p, r) ->
  exists s', rpc_run s [RReceive j; RComplete] = Next s' /\
    future_value c (r_events s') = Some (Some r).
Proof. exact (answer_completes l s c x j p r). Qed.
Print Assumptions C45_answer_completes.

(** C45: after the destructor no blocking call waits. *)
Theorem C45_closed_no_wait l s c : N.of_nat (starts l) <= two64 ->
  rpc_run client_init l = Next s -> r_closed s = true -> ~ waits s c.
Proof. exact (closed_no_wait l s c). Qed.
Print Assumptions C45_closed_no_wait.

Example C45_closed_example : exists s,
  rpc_run client_init [RStart (Blocking false) [1]; RRegister 0%nat; RSend 0%nat true; RClose; RGet 0%nat]
    = Next s /\ map c_phase (r_calls s) = [Returned (RValue None)].
Proof. exact close_blocking_case. Qed.

(** But the callbacks of calls that are under way then are never called: the failure is
    swallowed. *)
Theorem C45_callback_at_close_refuted : exists l s,
  N.of_nat (starts l) <= two64 /\ rpc_run client_init l = Next s /\
  r_closed s = true /\ map c_phase (r_calls s) = [Returned (RBool true)] /\ completions 0 s = O.
Proof. exact close_case. Qed.
Print Assumptions C45_callback_at_close_refuted.
