(** operator<< / operator>> of every message type of the system. A message struct
    is the tuple of its fields in wire order; an enum is the number of its
    underlying type. *)
From Coq Require Import NArith List Bool.
From stdpp Require Import base decidable list.
From Verif Require Import Base CodecModel TxModel.
Import ListNotations.
Open Scope N_scope.

Notation "a ** b" := (c_pair a b) (at level 40, left associativity).

(** ** Validation errors and sentinel messages *)

(** input_error {code, data_err, idx}, uhs/transaction/messages.cpp:65-75. *)
Definition c_input_error := c_u8 ** c_option c_u8 ** c_u64.
(** output_error, witness_error {code, idx}, messages.cpp:77-98. *)
Definition c_output_error := c_u8 ** c_u64.
Definition c_witness_error := c_u8 ** c_u64.
(** tx_error = variant<input_error, output_error, witness_error,
    tx_error_code>, uhs/transaction/validation.hpp:112-114. *)
Definition c_tx_error :=
  c_variant (VCons c_input_error (VCons c_output_error
            (VCons c_witness_error (VNil c_u8)))).
(** sentinel::execute_response {tx_status (int), optional tx_error},
    uhs/sentinel/format.cpp:12-20. *)
Definition c_execute_response := c_u32 ** c_option c_tx_error.
(** sentinel_attestation = pair<pubkey, signature>. *)
Definition c_attestation := c_pubkey ** c_sig.
(** sentinel request and response, uhs/sentinel/interface.hpp:61-73. *)
Definition c_sentinel_request := c_variant (VCons c_full_tx (VNil c_full_tx)).
Definition c_sentinel_response :=
  c_variant (VCons c_execute_response (VNil c_attestation)).

(** ** RPC envelope, util/rpc/format.hpp:16-36 and format.cpp:11-18 *)
Definition c_rpc_request {A} (c : codec A) := c_u64 ** c.
Definition c_rpc_response {A} (c : codec A) := c_u64 ** c_option c.

(** ** Watchtower *)

(** tx_error {tx_id, variant<sync, inputs_dne, stxo_range, incomplete,
    inputs_spent>}, watchtower/tx_error_messages.cpp:138-188. *)
Definition c_wt_error :=
  c_hash ** c_variant (VCons c_unit (VCons (c_vec c_hash) (VCons c_unit
             (VCons c_unit (VNil (c_uset c_hash)))))).
(** status_update_request: unordered_map<hash, vector<hash>>,
    watchtower/status_update_messages.cpp:10-20. *)
Definition c_status_update_request := c_map c_hash (c_vec c_hash).
(** status_update_state {u32 status, u64 height, uhs id}, :22-36. *)
Definition c_status_update_state := c_u32 ** c_u64 ** c_hash.
(** status_request_check_success: map<hash, vector<state>>, :38-48. *)
Definition c_status_check_success := c_map c_hash (c_vec c_status_update_state).
(** watchtower request = variant<status_update_request,
    best_block_height_request>; response = variant<status_request_check_success,
    best_block_height_response>, watchtower.hpp:55-89, messages.cpp:12-37. *)
Definition c_watchtower_request := c_variant (VCons c_status_update_request (VNil c_unit)).
Definition c_watchtower_response := c_variant (VCons c_status_check_success (VNil c_u64)).

(** ** Atomizer, uhs/atomizer/atomizer/format.cpp *)

(** atomizer::block, format.cpp:14-22. *)
Record block := Block { blk_height : N; blk_txs : list compact_tx }.
Definition c_block : codec block :=
  c_iso (fun p => Block (fst p) (snd p)) (fun b => (blk_height b, blk_txs b))
    (c_u64 ** c_vec c_compact_tx).
(** tx_notify_request {height, tx, unordered_set<u64>}, format.cpp:49-61. *)
Definition c_tx_notify_request := c_u64 ** c_compact_tx ** c_uset c_u64.
(** aggregate_tx_notification {oldest, tx}, :63-75. *)
Definition c_agg_tx := c_u64 ** c_compact_tx.
(** aggregate_tx_notify_request, :77-87. *)
Definition c_agg_request := c_vec c_agg_tx.
(** make_block_response {blk, errs}, :117-124. *)
Definition c_make_block_response := c_block ** c_vec c_wt_error.
(** Atomizer RPC request = variant<tx_notify, prune, get_block>,
    messages.hpp:87-89. *)
Definition c_atomizer_request :=
  c_variant (VCons c_tx_notify_request (VCons c_u64 (VNil c_u64))).
(** State machine request and response, state_machine.hpp:29-37. *)
Definition c_atomizer_sm_request :=
  c_variant (VCons c_agg_request (VCons c_unit (VCons c_u64 (VNil c_u64)))).
Definition c_atomizer_sm_response :=
  c_variant (VCons c_make_block_response (VCons c_block (VNil (c_vec c_wt_error)))).

(** ** Two-phase commit *)

(** locking_shard::tx, locking_shard/format.cpp:12-19. *)
Definition c_ls_tx := c_compact_tx.
(** locking shard request {dtx_id, variant<lock, apply, discard>} and response,
    locking_shard/format.cpp:21-29, messages.hpp:12-56. *)
Definition c_ls_request :=
  c_hash ** c_variant (VCons (c_vec c_ls_tx) (VCons (c_vec c_bool) (VNil c_unit))).
Definition c_ls_response :=
  c_variant (VCons (c_vec c_bool) (VCons c_unit (VNil c_unit))).
(** status_request = variant<uhs_status_request, tx_status_request>,
    status_messages.hpp:14-32. *)
Definition c_ls_status_request := c_variant (VCons c_hash (VNil c_hash)).

(** Coordinator state machine: header {u8 command, optional dtx id},
    coordinator/format.cpp:56-69. *)
Definition c_sm_header := c_u8 ** c_option c_hash.
(** controller::prepare_tx and commit_tx, coordinator/controller.hpp:64-67. *)
Definition c_prepare_tx := c_vec c_compact_tx.
Definition c_commit_tx := c_vec c_bool ** c_vec (c_vec c_u64).
(** coordinator_state as read by the controller, format.cpp:22-26. *)
Definition c_coord_state :=
  c_map c_hash c_prepare_tx ** c_map c_hash c_commit_tx ** c_uset c_hash.
(** coordinator_state as written by the state machine, format.cpp:15-20: the
    values are NuRaft buffers written raw, without a length
    (util/raft/messages.cpp:9-13). *)
Definition wr_raw_state (p c : list (N * bytes)) (d : list N) : writes :=
  (wr c_u64 (len p) ++ concat (map (fun x => wr c_hash (fst x) ++ [snd x]) p))
  ++ (wr c_u64 (len c) ++ concat (map (fun x => wr c_hash (fst x) ++ [snd x]) c))
  ++ wr (c_uset c_hash) d.

(** ** PArSEC runtime locking shard, parsec/runtime_locking_shard/format.cpp *)

(** state_update_type = unordered_map<buffer, buffer>. *)
Definition c_updates := c_map c_buffer c_buffer.
(** try_lock_request {ticket, broker, key, locktype, first_lock}, :11-24. *)
Definition c_try_lock := c_u64 ** c_u64 ** c_buffer ** c_u8 ** c_bool.
(** prepare_request {ticket, updates, broker}, :38-50. *)
Definition c_rls_prepare := c_u64 ** c_updates ** c_u64.
(** request = variant<try_lock, prepare, commit, rollback, finish,
    get_tickets>, messages.hpp:62-67. *)
Definition c_rls_request :=
  c_variant (VCons c_try_lock (VCons c_rls_prepare (VCons c_u64
            (VCons c_u64 (VCons c_u64 (VNil c_u64)))))).
(** wounded_details, shard_error, format.cpp:90-111. *)
Definition c_wounded := c_u64 ** c_buffer.
Definition c_shard_error := c_u8 ** c_option c_wounded.
(** response = variant<try_lock_return, prepare_return, get_tickets_return>,
    messages.hpp:69-71, interface.hpp:121,148,219-222. *)
Definition c_try_lock_return := c_variant (VCons c_buffer (VNil c_shard_error)).
Definition c_prepare_return := c_option c_shard_error.
Definition c_get_tickets_return := c_variant (VCons (c_map c_u64 c_u8) (VNil c_u8)).
Definition c_rls_response :=
  c_variant (VCons c_try_lock_return (VCons c_prepare_return (VNil c_get_tickets_return))).
(** Replicated shard, format.cpp:113-149, messages.hpp:74-95. *)
Definition c_repl_prepare := c_u64 ** c_u64 ** c_updates.
Definition c_repl_request :=
  c_variant (VCons c_repl_prepare (VCons c_u64 (VCons c_u64 (VNil c_unit)))).
Definition c_repl_ticket := c_u8 ** c_u64 ** c_updates.
Definition c_repl_response :=
  c_variant (VCons (c_option c_u8)
            (VNil (c_variant (VCons (c_map c_u64 c_repl_ticket) (VNil c_u8))))).

(** Agent exec_request and response, parsec/agent/format.cpp:11-19,
    messages.hpp:14-27. *)
Definition c_agent_request := c_buffer ** c_buffer ** c_bool.
Definition c_agent_response := c_variant (VCons c_updates (VNil c_u8)).

(** Ticket machine request = variant<monostate>, response = variant<pair,
    error>, parsec/ticket_machine/messages.hpp:13-16. *)
Definition c_ticket_request := c_variant (VNil c_unit).
Definition c_ticket_response := c_variant (VCons (c_u64 ** c_u64) (VNil c_u8)).

(** ** EVM, parsec/agent/runners/evm/format.cpp *)
Definition c_addr := c_array 20.
Definition c_b32 := c_array 32.
Definition c_vec_u8 := c_vec c_u8.
(** evm_account: only balance and nonce are written, :11-20. *)
Definition c_evm_account := c_b32 ** c_b32.
(** evm_sig {v, r, s}, :42-50. *)
Definition c_evm_sig := c_b32 ** c_b32 ** c_b32.
(** evm_access_tuple, :52-64. *)
Definition c_access_tuple := c_addr ** c_vec c_b32.
(** evm_tx, :66-80. *)
Definition c_evm_tx :=
  c_u8 ** c_option c_addr ** c_b32 ** c_b32 ** c_b32 ** c_b32 ** c_b32 ** c_b32
  ** c_vec_u8 ** c_vec c_access_tuple ** c_evm_sig.
(** evm_dryrun_tx, :82-91. *)
Definition c_evm_dryrun := c_addr ** c_evm_tx.
(** evm_log, :93-101. *)
Definition c_evm_log := c_addr ** c_vec_u8 ** c_vec c_b32.
(** evm_tx_receipt, :103-117. *)
Definition c_evm_receipt :=
  c_evm_tx ** c_option c_addr ** c_b32 ** c_vec c_evm_log ** c_vec_u8 ** c_u64
  ** c_u64 ** c_bool.
(** code_key {addr, zero byte}, :119-128. The byte is not part of the value. *)
Definition c_code_key : codec N := {|
  wr a := wr c_addr a ++ wr c_u8 0;
  dec s := bind (dec c_addr s) (fun a s1 => bind (dec c_u8 s1) (fun _ s2 => Ok a s2));
  dom a := dom c_addr a
|}.
(** storage_key, :130-138. *)
Definition c_storage_key := c_addr ** c_b32.
(** evm_pretend_block, :140-150. *)
Definition c_pretend_block := c_u64 ** c_vec c_evm_receipt.
(** evm_log_query {addresses, from, to, topics}, :152-162. *)
Definition c_log_query := c_vec c_addr ** c_u64 ** c_u64 ** c_vec c_b32.
(** evm_log_index, :164-173. *)
Definition c_log_index := c_u64 ** c_hash ** c_vec c_evm_log.
