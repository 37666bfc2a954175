(** One law per message type. *)
From Coq Require Import NArith List Lia.
From stdpp Require Import base decidable list.
From Verif Require Import Base CodecModel CodecSpec CodecProofs TxModel MsgModel MsgProofs.
Open Scope N_scope.

Lemma wire_full_tx : wire_correct c_full_tx.
Proof. apply wire_of_lawful. lawful_msg. Qed.
Lemma wire_compact_tx : wire_correct c_compact_tx.
Proof. apply wire_of_lawful. lawful_msg. Qed.
Lemma wire_out_point : wire_correct c_out_point.
Proof. apply wire_of_lawful. lawful_msg. Qed.
Lemma wire_output : wire_correct c_output.
Proof. apply wire_of_lawful. lawful_msg. Qed.
Lemma wire_input : wire_correct c_input.
Proof. apply wire_of_lawful. lawful_msg. Qed.
Lemma wire_tx_error : wire_correct c_tx_error.
Proof. apply wire_of_lawful. lawful_msg. Qed.
Lemma wire_execute_response : wire_correct c_execute_response.
Proof. apply wire_of_lawful. lawful_msg. Qed.
Lemma wire_sentinel_request : wire_correct c_sentinel_request.
Proof. apply wire_of_lawful. lawful_msg. Qed.
Lemma wire_sentinel_response : wire_correct c_sentinel_response.
Proof. apply wire_of_lawful. lawful_msg. Qed.
Lemma wire_wt_error : wire_correct c_wt_error.
Proof. apply wire_of_lawful. lawful_msg. Qed.
Lemma wire_status_update_request : wire_correct c_status_update_request.
Proof. apply wire_of_lawful. lawful_msg. Qed.
Lemma wire_status_check_success : wire_correct c_status_check_success.
Proof. apply wire_of_lawful. lawful_msg. Qed.
Lemma wire_watchtower_request : wire_correct c_watchtower_request.
Proof. apply wire_of_lawful. lawful_msg. Qed.
Lemma wire_watchtower_response : wire_correct c_watchtower_response.
Proof. apply wire_of_lawful. lawful_msg. Qed.
Lemma wire_block : wire_correct c_block.
Proof. apply wire_of_lawful. lawful_msg. Qed.
Lemma wire_tx_notify_request : wire_correct c_tx_notify_request.
Proof. apply wire_of_lawful. lawful_msg. Qed.
Lemma wire_agg_tx : wire_correct c_agg_tx.
Proof. apply wire_of_lawful. lawful_msg. Qed.
Lemma wire_agg_request : wire_correct c_agg_request.
Proof. apply wire_of_lawful. lawful_msg. Qed.
Lemma wire_make_block_response : wire_correct c_make_block_response.
Proof. apply wire_of_lawful. lawful_msg. Qed.
Lemma wire_atomizer_request : wire_correct c_atomizer_request.
Proof. apply wire_of_lawful. lawful_msg. Qed.
Lemma wire_atomizer_sm_request : wire_correct c_atomizer_sm_request.
Proof. apply wire_of_lawful. lawful_msg. Qed.
Lemma wire_atomizer_sm_response : wire_correct c_atomizer_sm_response.
Proof. apply wire_of_lawful. lawful_msg. Qed.
Lemma wire_ls_request : wire_correct c_ls_request.
Proof. apply wire_of_lawful. lawful_msg. Qed.
Lemma wire_ls_response : wire_correct c_ls_response.
Proof. apply wire_of_lawful. lawful_msg. Qed.
Lemma wire_ls_status_request : wire_correct c_ls_status_request.
Proof. apply wire_of_lawful. lawful_msg. Qed.
Lemma wire_sm_header : wire_correct c_sm_header.
Proof. apply wire_of_lawful. lawful_msg. Qed.
Lemma wire_prepare_tx : wire_correct c_prepare_tx.
Proof. apply wire_of_lawful. lawful_msg. Qed.
Lemma wire_commit_tx : wire_correct c_commit_tx.
Proof. apply wire_of_lawful. lawful_msg. Qed.
Lemma wire_coord_state : wire_correct c_coord_state.
Proof. apply wire_of_lawful. lawful_msg. Qed.
Lemma wire_try_lock : wire_correct c_try_lock.
Proof. apply wire_of_lawful. lawful_msg. Qed.
Lemma wire_rls_prepare : wire_correct c_rls_prepare.
Proof. apply wire_of_lawful. lawful_msg. Qed.
Lemma wire_rls_request : wire_correct c_rls_request.
Proof. apply wire_of_lawful. lawful_msg. Qed.
Lemma wire_shard_error : wire_correct c_shard_error.
Proof. apply wire_of_lawful. lawful_msg. Qed.
Lemma wire_rls_response : wire_correct c_rls_response.
Proof. apply wire_of_lawful. lawful_msg. Qed.
Lemma wire_repl_prepare : wire_correct c_repl_prepare.
Proof. apply wire_of_lawful. lawful_msg. Qed.
Lemma wire_repl_request : wire_correct c_repl_request.
Proof. apply wire_of_lawful. lawful_msg. Qed.
Lemma wire_repl_ticket : wire_correct c_repl_ticket.
Proof. apply wire_of_lawful. lawful_msg. Qed.
Lemma wire_repl_response : wire_correct c_repl_response.
Proof. apply wire_of_lawful. lawful_msg. Qed.
Lemma wire_agent_request : wire_correct c_agent_request.
Proof. apply wire_of_lawful. lawful_msg. Qed.
Lemma wire_agent_response : wire_correct c_agent_response.
Proof. apply wire_of_lawful. lawful_msg. Qed.
Lemma wire_ticket_request : wire_correct c_ticket_request.
Proof. apply wire_of_lawful. lawful_msg. Qed.
Lemma wire_ticket_response : wire_correct c_ticket_response.
Proof. apply wire_of_lawful. lawful_msg. Qed.
Lemma wire_evm_account : wire_correct c_evm_account.
Proof. apply wire_of_lawful. lawful_msg. Qed.
Lemma wire_evm_sig : wire_correct c_evm_sig.
Proof. apply wire_of_lawful. lawful_msg. Qed.
Lemma wire_evm_tx : wire_correct c_evm_tx.
Proof. apply wire_of_lawful. lawful_msg. Qed.
Lemma wire_evm_dryrun : wire_correct c_evm_dryrun.
Proof. apply wire_of_lawful. lawful_msg. Qed.
Lemma wire_evm_log : wire_correct c_evm_log.
Proof. apply wire_of_lawful. lawful_msg. Qed.
Lemma wire_evm_receipt : wire_correct c_evm_receipt.
Proof. apply wire_of_lawful. lawful_msg. Qed.
Lemma wire_code_key : wire_correct c_code_key.
Proof. apply wire_of_lawful. lawful_msg. Qed.
Lemma wire_storage_key : wire_correct c_storage_key.
Proof. apply wire_of_lawful. lawful_msg. Qed.
Lemma wire_pretend_block : wire_correct c_pretend_block.
Proof. apply wire_of_lawful. lawful_msg. Qed.
Lemma wire_log_query : wire_correct c_log_query.
Proof. apply wire_of_lawful. lawful_msg. Qed.
Lemma wire_log_index : wire_correct c_log_index.
Proof. apply wire_of_lawful. lawful_msg. Qed.

(** A type that may hold [n] elements may hold an example. *)
Definition ex_tx : full_tx :=
  FullTx [Input (OutPoint 7 1) (Output 9 30); Input (OutPoint 8 0) (Output 9 12)]
         [Output 5 40; Output 6 2] [[0; 1; 2]; []].
Lemma ex_tx_dom : dom c_full_tx ex_tx.
Proof. cbn. repeat first [split | constructor]; cbn; vm_compute; reflexivity. Qed.

Definition ex_ls_request : N * (list compact_tx + (list bool + unit)) :=
  (77, inl [CompactTx 1 [2; 3] [4] [(5, 6); (7, 8)]]).
Lemma ex_ls_request_dom : dom c_ls_request ex_ls_request.
Proof.
  cbn. repeat first [split | constructor]; cbn; try (vm_compute; reflexivity);
  apply (bool_decide_unpack _); vm_compute; exact I.
Qed.

Lemma nuraft_filled junk (w : writes) : (forall n, len (junk n) = n) ->
  make_nuraft_buffer junk w = NuSer (make_buffer w) (serialized_size w) true /\
  serialized_size w = len (make_buffer w).
Proof.
  intros H. rewrite make_nuraft_buffer_ok, make_buffer_ok, serialized_size_ok by assumption.
  auto.
Qed.
Lemma stream_same (w : writes) file :
  fold_left ostream_write w file = file ++ make_buffer w.
Proof. rewrite make_buffer_ok. apply ostream_ok. Qed.
Lemma junk_exists : exists junk : N -> bytes, forall n, len (junk n) = n.
Proof.
  exists (fun n => repeat 0 (N.to_nat n)). intros n. unfold len.
  rewrite repeat_length. lia.
Qed.
Lemma buf_read_wraps : exists pkt cursor n,
  cursor <= len pkt /\ n < 2 ^ 64 /\ buf_read pkt cursor n = RdOob.
Proof.
  exists (1 :: nil)%list, 1, (2 ^ 64 - 1). vm_compute. repeat split; discriminate.
Qed.
Lemma truncation_throws : exists (a : bytes * bytes) p q,
  dom (c_pair c_buffer c_buffer) a /\ q <> nil /\
  encoding (c_pair c_buffer c_buffer) a = p ++ q /\
  from_buffer (c_pair c_buffer c_buffer) p = Throw.
Proof.
  exists (repeat 255 9, nil), (9 :: repeat 0 7 ++ repeat 255 8), (255 :: repeat 0 8).
  split; [|split; [discriminate|split; vm_compute; reflexivity]].
  repeat split; try (vm_compute; discriminate); repeat constructor.
Qed.
