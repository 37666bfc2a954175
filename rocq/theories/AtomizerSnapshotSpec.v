(** Vocabulary for C23: one state machine that never stops. *)
From Coq Require Import NArith List Bool.
From stdpp Require Import base decidable list gmap.
From Verif Require Import Base CodecModel TxModel MsgModel AtomizerModel AtomizerSpec.
Import ListNotations.
Open Scope N_scope.

(** Its state after the entries [l] (a configuration entry does nothing). *)
Fixpoint log_state (s : sm) (l : list (option sm_request)) : aout sm :=
  match l with
  | [] => ADone s
  | None :: r => log_state s r
  | Some q :: r => abind (sm_commit s q) (fun '(s', _) => log_state s' r)
  end.

(** Its answer to entry number [i]. *)
Definition log_answer (d : N) (log : list (option sm_request)) (i : N) (x : option sm_response) : Prop :=
  exists q s s', log !! N.to_nat i = Some (Some q) /\
    log_state (sm_new d) (take (N.to_nat i) log) = ADone s /\ sm_commit s q = ADone (s', x).

(** The transactions a log contains. *)
Definition log_txs (l : list (option sm_request)) : list compact_tx :=
  concat (map (fun e => match e with Some (QAgg ts) => map snd ts | _ => [] end) l).
Definition log_requests (l : list (option sm_request)) : list sm_request :=
  concat (map (fun e => match e with Some q => [q] | None => [] end) l).

(** Everything in the log fits the types of the code: 32-byte hashes, counts below 2^64. *)
Record log_fits (d : N) (l : list (option sm_request)) : Prop := {
  lf_depth : d + 1 < two64;
  lf_requests : forall r, r ∈ log_requests l -> request_ok d r;
  lf_blocks : block_requests (log_requests l) < two64 - 1;
  lf_txs : Forall (dom c_compact_tx) (log_txs l);
  lf_length : len l < two64;
  lf_count : len (log_txs l) < two64;
  lf_inputs : len (concat (map ctx_inputs (log_txs l))) < two64 }.
